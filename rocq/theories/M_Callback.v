(** The life time of timer callbacks.

    Sources: include/timer.h:54-69 (timer_info::call_back), 94-121 (create_or_update_timer), 126-132 (change_timer_call_back, set_timer),
    182-205 (timer_handler calls ti.call_back(ti.id) in place); include/tcp/socket.h:313-314, 462-481 (shutdown_handler, which replaces
    the callback it was called by), include/tcp/client_socket.h:128, 137-140, 209 (callbacks of the connecting timers).

    A boost::function holding a function object that is larger than its internal buffer - as
    if_then_else_return(bind(&socket_base::shutdown_handler, this, n), true, false) is - allocates a copy of it; that copy is what runs, and
    swapping two boost::functions exchanges the pointers. The overloads taking a const boost::function& copy it to a local variable
    ("unused"), swap, and destroy the local variable when returning - with the former callback in it.

    Modelled: the objects, which of them exist, and what a running callback does that matters here: touching its own members, and
    setting the callback of a timer. One thread at a time. *)
From Coq Require Import List Bool Arith.
Import ListNotations.

Definition obj := nat.
(** one operation of a callback: touch the own function object (its bound arguments and constants); set a timer's callback *)
Inductive cbop : Type := Touch | Set_cb (timer code : nat).
(** what the callbacks with a given code do *)
Definition prog := nat -> list cbop.

Record cst : Type := mk_c {
  c_next : obj;                          (* allocations so far *)
  c_alive : list obj;
  c_slot : nat -> option (obj * nat)     (* timer_info::call_back: the object and its code *)
}.
Definition c0 : cst := mk_c 0 [] (fun _ => None).

Definition upd_slot (f : nat -> option (obj * nat)) (t : nat) (x : option (obj * nat)) : nat -> option (obj * nat) := fun u => if u =? t then x else f u.
(** set_timer / change_timer_call_back(id, const boost::function&): copy, swap, destroy the copy with the former callback in it *)
Definition set_cb (s : cst) (t code : nat) : cst :=
  let s1 := mk_c (S (c_next s)) (c_next s :: c_alive s) (c_slot s) in
  let old := c_slot s1 t in
  let s2 := mk_c (c_next s1) (c_alive s1) (upd_slot (c_slot s1) t (Some (c_next s, code))) in
  match old with
  | Some (o, _) => mk_c (c_next s2) (remove Nat.eq_dec o (c_alive s2)) (c_slot s2)
  | None => s2
  end.
(** running the object o; None: it is touched after it was destroyed *)
Fixpoint run_cb (s : cst) (o : obj) (l : list cbop) : option cst :=
  match l with
  | [] => Some s
  | Touch :: l' => if existsb (Nat.eqb o) (c_alive s) then run_cb s o l' else None
  | Set_cb t code :: l' => run_cb (set_cb s t code) o l'
  end.
(** what happens to the timers: somebody sets a callback; a timer fires *)
Inductive cact : Type := CSet (t code : nat) | CFire (t : nat).
Definition cstep (p : prog) (s : cst) (a : cact) : option cst :=
  match a with
  | CSet t code => Some (set_cb s t code)
  | CFire t => match c_slot s t with Some (o, code) => run_cb s o (p code) | None => Some s end
  end.
Fixpoint csteps (p : prog) (s : cst) (l : list cact) : option cst :=
  match l with [] => Some s | a :: l' => match cstep p s a with Some s1 => csteps p s1 l' | None => None end end.

(** timers of a TCP client socket *)
Definition T_SHUTDOWN := 0. Definition T_CONNECT := 1. Definition T_DELAY := 2.
(** the callbacks of TIMER_ASYNC_SHUTDOWN, include/tcp/socket.h:313-314 and 469-471. Code 0: shutdown_handler's last call; S n: a call that
    is followed by n + 1 others: the object's arguments are read, shutdown_handler replaces the callback, then if_then_else_return
    reads the constant "true" in the object *)
Definition shutdown_prog : prog := fun n => match n with O => [Touch; Touch] | S m => [Touch; Set_cb T_SHUTDOWN m; Touch] end.
(** of TIMER_CONNECT (0), include/tcp/client_socket.h:128 and 209, and of TIMER_CONNECT_DELAY (others), 137-140 *)
Definition connect_prog : prog := fun n => match n with O => [Touch; Touch] | _ => [Touch; Touch; Set_cb T_CONNECT 0; Touch] end.
