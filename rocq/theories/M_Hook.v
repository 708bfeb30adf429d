(** Registered callbacks in place of virtual functions.

    Source: include/ext/callbacks.h:22-30 (what the overriding functions do), 32-41 (registering), 43-279 (the classes, with the kind of each
    function and the default of pass_on); the members std::pair<boost::function<...>, bool> start as (empty, false).

    Simplified: a callback is a number and its results are given with the event (they are the application's); the library's own function
    likewise. A callback that registers callbacks itself is not modelled. Arguments are one number (an identity); that callbacks may change
    what they get by reference (messages, containers) is not modelled. *)
From Coq Require Import List Bool Arith ZArith.
Import ListNotations.
Open Scope Z_scope.

(** the functions that can be registered, in the order of callbacks.h *)
Inductive fn : Type :=
  | Obsoleted | Is_ready | Send_heartbeat | Reset | On_heartbeat_error | On_send_error | On_recv_error | On_close | After_close
  | On_msg | On_msg_handle | On_msg_handle_batch | On_msg_send | On_all_msg_send | Calc_shrink_size | On_msg_discard
  | On_connect | On_unpack_error | On_async_shutdown_error | Prepare_reconnect | Take_over
  | Async_accept_num | Start_next_accept | On_accept | On_accept_error | On_create.
Definition fn_eq_dec : forall a b : fn, {a = b} + {a <> b}. Proof. decide equality. Defined.

(** call_cb_void and its variants; call_cb_combine and its variants (bool); call_cb_return and its variants (a number) *)
Inductive kind : Type := KVoid | KCombine | KReturn.
(** callbacks.h:106-136, 183-185, 205, 223, 247-250, 273 *)
Definition kind_of (f : fn) : kind :=
  match f with
  | Obsoleted | Is_ready | On_heartbeat_error | On_msg_handle | On_accept | On_accept_error => KCombine
  | On_msg | On_msg_handle_batch | Calc_shrink_size | Prepare_reconnect | Async_accept_num => KReturn
  | Send_heartbeat | Reset | On_send_error | On_recv_error | On_close | After_close | On_msg_send | On_all_msg_send | On_msg_discard
  | On_connect | On_unpack_error | On_async_shutdown_error | Take_over | Start_next_accept | On_create => KVoid
  end.
(** the default of pass_on, callbacks.h:81-102, 178-180, 202, 220, 241-244, 267 *)
Definition pass_default (f : fn) : bool :=
  match f with
  | Obsoleted | Is_ready | Reset | On_heartbeat_error | On_send_error | On_recv_error | On_close | After_close
  | On_unpack_error | On_async_shutdown_error | Start_next_accept | On_accept | On_accept_error => true
  | Send_heartbeat | On_msg | On_msg_handle | On_msg_handle_batch | On_msg_send | On_all_msg_send | Calc_shrink_size | On_msg_discard
  | On_connect | Prepare_reconnect | Take_over | Async_accept_num | On_create => false
  end.

(** cb_fun.first, cb_fun.second *)
Definition slot : Type := (option nat * bool)%type.
Definition slots := fn -> slot.
(** callbacks.h:140-163 and the like: value-initialized pairs *)
Definition h0 : slots := fun _ => (None, false).

Inductive hop : Type :=
  | HReg (f : fn) (cb : nat) (pass_on : option bool)   (* register_fun(cb) or register_fun(cb, pass_on) *)
  | HFire (f : fn) (arg : nat) (rc rl : Z).            (* the library calls the virtual function; what callback and own function return *)
Inductive hev : Type :=
  | VCallback (f : fn) (cb arg : nat)
  | VOwn (f : fn) (arg : nat)
  | VResult (f : fn) (r : Z).

(** callbacks.h:32-41 *)
Definition register (h : slots) (f : fn) (cb : nat) (po : option bool) : slots :=
  let pass_on := match po with Some b => b | None => pass_default f end in
  fun g => if fn_eq_dec g f then (Some cb, negb pass_on) else h g.

Definition told (f : fn) (arg : nat) (first : option nat) : list hev := match first with Some cb => [VCallback f cb arg] | None => [] end.
(** callbacks.h:22-30 *)
Definition fire (h : slots) (f : fn) (arg : nat) (rc rl : Z) : list hev :=
  let (first, second) := h f in
  match kind_of f with
  | KVoid => told f arg first ++ (if negb second then [VOwn f arg] else [])
  | KCombine =>
      let re := match first with Some _ => negb (rc =? 0) | None => true end in
      if re && negb second
      then told f arg first ++ [VOwn f arg; VResult f (if rl =? 0 then 0 else 1)]
      else told f arg first ++ [VResult f (if re then 1 else 0)]
  | KReturn =>
      let re := match first with Some _ => rc | None => 0 end in
      if negb second
      then told f arg first ++ [VOwn f arg; VResult f rl]
      else told f arg first ++ [VResult f re]
  end.
Definition hstep (h : slots) (a : hop) : slots * list hev :=
  match a with
  | HReg f cb po => (register h f cb po, [])
  | HFire f arg rc rl => (h, fire h f arg rc rl)
  end.
(** the events of each operation *)
Fixpoint hrun (h : slots) (l : list hop) : list (list hev) :=
  match l with [] => [] | a :: l' => let (h1, e) := hstep h a in e :: hrun h1 l' end.
