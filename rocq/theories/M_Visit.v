(** Functions of a server that visit all objects: object_pool::do_something_to_all (include/object_pool.h:354-355) with the predicates of
    disconnect(), force_shutdown() (include/tcp/server.h:195, 197, called by uninit(), 203, too), broadcast_msg and safe_broadcast_msg
    (include/tcp/server.h:184-189, include/base.h:799-809) and predicates of the application; and what else takes the pool's mutex: add_object
    (include/object_pool.h:62-70) from accept_handler (include/tcp/server.h:228-241, 251-264), del_object (74-88) from on_close of a link
    (include/tcp/server_socket.h:67-74), and size(), exist(), find() (include/object_pool.h:205-222) called by the application in on_connect.

    The pool's mutex is the default, a boost::mutex (include/config.h:1372-1377): it is not recursive.

    Simplifications: one thread visits objects, beside any number of service threads on one io_context; the application does not touch single
    links; the send buffer is measured in messages; a write takes all queued messages; sleeping is left out; writes do not fail unless the link
    broke; the critical sections of add_object and del_object, which do not block, are one step; the timer before on_close
    (include/socket.h:463) is one waiting handler; the order of the unordered_map is the order of insertion; the pool has no upper limit (see
    C67 for it); the io_context is not stopped; do_send_msg always waits for a service thread, also if [c_inline]; the status changes with close(). *)
From Coq Require Import List Arith Bool.
Import ListNotations.

Definition msg := nat.
(** [c_limit]: send_buf_size; [c_inline]: the visiting thread is a service thread, so that dispatch_in_io_strand (include/socket.h:112) runs the
    function at once; [c_asks]: on_connect asks the pool (find(), size(), exist()) *)
Record cfg : Type := mk_cfg { c_limit : nat; c_inline : bool; c_asks : bool }.
(** a link: status CONNECTED; the start lock (include/socket.h:154, 430) is held by start(); the send buffer; the atomic [sending]
    (include/socket.h:424-425); a write in progress *)
Record link : Type := mk_link { l_up : bool; l_starting : bool; l_buf : list msg; l_sending : bool; l_writing : bool }.
(** what waits for a service thread: the first step of sending (include/socket.h:176), the end of a write (include/tcp/socket.h:411-461), a
    shutdown (include/tcp/socket.h:230, also after a failed read, 376-381), the end of a link (include/socket.h:789-811), a new connection *)
Inductive hnd : Type := HSend (i : nat) | HSent (i : nat) | HShut (i : nat) | HClose (i : nat) | HAccept (i : nat).
(** a service thread is about to: add the object, needs the mutex; start() it; return from on_connect, which needs the mutex if [c_asks];
    close(), which spins on the start lock (include/socket.h:430-435); remove the object, needs the mutex *)
Inductive op : Type := WAdd (i : nat) | WStart (i : nat) | WConnect (i : nat) | WShut (i : nat) | WDel (i : nat).
(** a function that visits all objects: force_shutdown() and disconnect(); a broadcast: safe or not, can_overflow, the message;
    do_something_to_all with a predicate of the application, which asks the pool itself or not *)
Inductive call : Type := CShut | CBroad (safe ovf : bool) (m : msg) | CVisit (asks : bool).
(** the visiting thread: waits for the mutex; holds it and has to visit these objects; waits for the mutex it holds itself *)
Inductive vis : Type := Idle | Wait (c : call) | Visit (c : call) (left : list nat) | Stuck.
(** [s_lock]: the mutex is held; [s_thr]: the service threads (None: idle) *)
Record st : Type := mk_st { s_lock : bool; s_app : vis; s_pool : list nat; s_link : nat -> link; s_pend : list hnd; s_thr : list (option op) }.

Definition link0 : link := mk_link false false [] false false.
(** n service threads, no connection yet *)
Definition init (n : nat) : st := mk_st false Idle [] (fun _ => link0) [] (repeat None n).

Definition upd (f : nat -> link) (i : nat) (l : link) : nat -> link := fun j => if j =? i then l else f j.
Fixpoint set_nth {A} (k : nat) (x : A) (l : list A) : list A :=
  match l, k with [], _ => [] | _ :: r, O => x :: r | a :: r, S k' => a :: set_nth k' x r end.
Fixpoint del_nth {A} (k : nat) (l : list A) : list A :=
  match l, k with [], _ => [] | _ :: r, O => r | a :: r, S k' => a :: del_nth k' r end.

Inductive act : Type :=
| ACall (c : call) | ALock | AStep                          (* the visiting thread *)
| SPick (w k : nat)                                         (* idle service thread w takes the k-th waiting handler *)
| SGo (w : nat)                                             (* service thread w goes on *)
| PWrote (i : nat)                                          (* the operating system took the data: the peer reads *)
| PBreak (i : nat)                                          (* the peer closed or the network failed *)
| PConnect (i : nat).                                       (* a peer connects; the new object has id i (ids are not repeated, see C43; here they may be) *)

(** what became of a visited object *)
Inductive seen : Type := RQueued (m : msg) | RMissed (m : msg) | RShut | RSeen.
Inductive ev : Type := EAdd (i : nat) | EDel (i : nat) | EUp (i : nat) | EDown (i : nat) | EBegin (c : call) | EVisit (i : nat) (r : seen) | EReturn | EWire (i : nat) (ms : list msg).

(** do_send_msg (include/tcp/socket.h:384-409) after [sending] was set: move the queued messages out and write them, or give [sending] back *)
Definition do_send (l : link) : link * list msg :=
  match l_buf l with
  | [] => (mk_link (l_up l) (l_starting l) [] false false, [])
  | b => (mk_link (l_up l) (l_starting l) [] true true, b)
  end.
Definition wire (i : nat) (ms : list msg) : list ev := match ms with [] => [] | _ => [EWire i ms] end.

(** do_direct_send_msg (include/socket.h:538-577): queue; send_msg (176) posts do_send_msg if the link is ready and nobody sends *)
Definition enqueue (l : link) (m : msg) : link := mk_link (l_up l) (l_starting l) (l_buf l ++ [m]) (l_sending l) (l_writing l).
Definition starts_sending (l : link) (i : nat) : list hnd := if l_up l && negb (l_sending l) then [HSend i] else [].

(** shutdown() and close() once the start lock is free (include/tcp/socket.h:318-327, include/socket.h:436-467); nothing on a link that is down *)
Definition put (s : st) (i : nat) (l : link) (more : list hnd) : st := mk_st (s_lock s) (s_app s) (s_pool s) (upd (s_link s) i l) (s_pend s ++ more) (s_thr s).
Definition shut (s : st) (i : nat) : st * list ev :=
  let l := s_link s i in
  if l_up l then (put s i (mk_link false (l_starting l) (l_buf l) (l_sending l) (l_writing l)) [HClose i], [EDown i]) else (s, []).

(** the predicate applied to object i. Result: None - the thread waits for the mutex it holds; Some None - it tries again; otherwise the state,
    the events and what became of i *)
Definition visit (c : cfg) (s : st) (f : call) (i : nat) : option (option (st * list ev * seen)) :=
  let l := s_link s i in
  match f with
  | CVisit asks => if asks then None else Some (Some (s, [], RSeen))
  | CShut =>
    if c_inline c then
      if l_starting l then Some None                        (* close() spins on the start lock, include/socket.h:430-435 *)
      else let '(s', e) := shut s i in Some (Some (s', e, RShut))
    else Some (Some (put s i l [HShut i], [], RShut))
  | CBroad safe ovf m =>
    if ovf || (length (l_buf l) <? c_limit c) then          (* shrink_send_buffer, include/socket.h:389-417 *)
      Some (Some (put s i (enqueue l m) (starts_sending l i), [], RQueued m))
    else if safe && l_up l then Some None                   (* SAFE_SEND_MSG_CHECK, include/base.h:681-685 *)
    else Some (Some (s, [], RMissed m))
  end.

Definition with_app (s : st) (a : vis) : st := mk_st (s_lock s) a (s_pool s) (s_link s) (s_pend s) (s_thr s).
Definition with_thr (s : st) (w : nat) (o : option op) : st := mk_st (s_lock s) (s_app s) (s_pool s) (s_link s) (s_pend s) (set_nth w o (s_thr s)).

Definition step (c : cfg) (s : st) (a : act) : option (st * list ev) :=
  match a with
  | ACall f => match s_app s with Idle => Some (with_app s (Wait f), []) | _ => None end
  | ALock => match s_app s with
             | Wait f => if s_lock s then None else Some (mk_st true (Visit f (s_pool s)) (s_pool s) (s_link s) (s_pend s) (s_thr s), [EBegin f])
             | _ => None end
  | AStep => match s_app s with
             | Visit f [] => Some (mk_st false Idle (s_pool s) (s_link s) (s_pend s) (s_thr s), [EReturn])
             | Visit f (i :: r) =>
               match visit c s f i with
               | None => Some (with_app s Stuck, [])
               | Some None => Some (s, [])
               | Some (Some (s', e, x)) => Some (with_app s' (Visit f r), EVisit i x :: e)
               end
             | _ => None end
  | SPick w k =>
    match nth_error (s_thr s) w, nth_error (s_pend s) k with
    | Some None, Some h =>
      let s1 := mk_st (s_lock s) (s_app s) (s_pool s) (s_link s) (del_nth k (s_pend s)) (s_thr s) in
      match h with
      | HSend i => let l := s_link s i in
        if l_sending l then Some (s1, [])
        else let '(l', ms) := do_send l in Some (put s1 i l' [], wire i ms)
      | HSent i => let l := s_link s i in                    (* send_handler; on a broken link with an error *)
        if l_up l then let '(l', ms) := do_send l in Some (put s1 i l' [], wire i ms)
        else Some (put s1 i (mk_link false (l_starting l) (l_buf l) false false) [], [])
      | HShut i => Some (with_thr s1 w (Some (WShut i)), [])
      | HClose i => Some (with_thr s1 w (Some (WDel i)), [])
      | HAccept i => Some (with_thr s1 w (Some (WAdd i)), [])
      end
    | _, _ => None
    end
  | SGo w =>
    match nth_error (s_thr s) w with
    | Some (Some (WAdd i)) =>
      if s_lock s then None
      else if existsb (Nat.eqb i) (s_pool s) then Some (with_thr s w None, [])
      else Some (with_thr (mk_st (s_lock s) (s_app s) (s_pool s ++ [i]) (upd (s_link s) i link0) (s_pend s) (s_thr s)) w (Some (WStart i)), [EAdd i])
    | Some (Some (WStart i)) =>                              (* start() and do_start(), include/socket.h:150-162, include/tcp/socket.h:241-248 *)
      let l := s_link s i in
      Some (with_thr (put s i (mk_link true true (l_buf l) (l_sending l) (l_writing l)) []) w (Some (WConnect i)), [EUp i])
    | Some (Some (WConnect i)) =>                            (* the end of do_start, include/socket.h:322-334 *)
      let l := s_link s i in
      if c_asks c && s_lock s then None
      else Some (with_thr (put s i (mk_link (l_up l) false (l_buf l) (l_sending l) (l_writing l)) (starts_sending l i)) w None, [])
    | Some (Some (WShut i)) =>
      if l_starting (s_link s i) then None else let '(s', e) := shut s i in Some (with_thr s' w None, e)
    | Some (Some (WDel i)) =>
      if s_lock s then None
      else Some (with_thr (mk_st (s_lock s) (s_app s) (filter (fun j => negb (j =? i)) (s_pool s)) (s_link s) (s_pend s) (s_thr s)) w None,
                 if existsb (Nat.eqb i) (s_pool s) then [EDel i] else [])
    | _ => None
    end
  | PWrote i => let l := s_link s i in
    if l_writing l then Some (put s i (mk_link (l_up l) (l_starting l) (l_buf l) (l_sending l) false) [HSent i], []) else None
  | PBreak i => let l := s_link s i in if l_up l && negb (l_starting l) then Some (put s i l [HShut i], []) else None
  | PConnect i => Some (mk_st (s_lock s) (s_app s) (s_pool s) (s_link s) (s_pend s ++ [HAccept i]) (s_thr s), [])
  end.

Fixpoint run (c : cfg) (s : st) (l : list act) : option (st * list ev) :=
  match l with
  | [] => Some (s, [])
  | a :: l' => match step c s a with
               | None => None
               | Some (s1, e1) => match run c s1 l' with Some (s2, e2) => Some (s2, e1 ++ e2) | None => None end
               end
  end.
