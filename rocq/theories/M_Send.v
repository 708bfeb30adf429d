(** The sending side of a TCP socket as a transition system: any number of application threads calling the
    send functions, the I/O strand and the completion of asynchronous writes, interleaved at the level of the
    individual atomic operations (queue operations under their lock, loads/stores/exchanges of the sending flag).

    Sources: include/socket.h:176 (send_msg), 261-269 (direct_send_msg), 419 (shrink_send_buffer without
    ST_ASIO_SHRINK_SEND_BUFFER), 427-428 (sending flag), 538-577 (do_direct_send_msg);
    include/tcp/socket.h:45-52 (batch_msg_send_size), 384-408 (do_send_msg), 410-460 (send_handler).

    Simplifications: sequentially consistent atomics; the byte counter of the send buffer is the sum of the
    items' sizes (that it is exact is C19); memory allocation succeeds; statistics are left out;
    handing a function to the strand (dispatch_in_io_strand) from a thread outside the strand always queues it
    (running it at once in the calling thread is the same as queueing it and running it next, because nothing
    follows the call in send_msg); queued functions may be run in any order. *)
From Coq Require Import List NArith Bool Arith.
From Verif Require Import M_Bytes M_Queue.
Import ListNotations.
Open Scope N_scope.

(** a message as stored in the send buffer (in_msg, include/socket.h:122-126) *)
Notation item := (list byte) (only parsing).

(** send_buf_size_ (include/socket.h:861), batch_msg_send_size (include/tcp/socket.h:45-52: 0 or 65536), size_t range *)
Record send_cfg : Type := mk_sc { send_limit : N; batch_size : N; sc_W : N }.

(** what a thread is about to execute *)
Inductive frame : Type :=
| FUser                                               (* application code in a callback running in the strand *)
| FCheck (it : list item) (prior overflow : bool)     (* direct_send_msg, include/socket.h:264-269 *)
| FEnq (it : list item) (prior : bool)                (* do_direct_send_msg, include/socket.h:538-577, before the insertion *)
| FReady                                              (* send_msg, include/socket.h:176, before is_ready() *)
| FLoad                                               (* send_msg, include/socket.h:176, before sending.load() *)
| FDo (in_strand : bool)                              (* do_send_msg, include/tcp/socket.h:384-387 *)
| FMove                                               (* include/tcp/socket.h:389-390 *)
| FBuild                                              (* include/tcp/socket.h:391-404 *)
| FClear                                              (* include/tcp/socket.h:406 *)
| FEmpty                                              (* include/tcp/socket.h:407 *)
| FSent                                               (* send_handler, include/tcp/socket.h:445-446 *)
| FErr                                                (* send_handler, include/tcp/socket.h:456 *)
| FErrClear.                                          (* send_handler, include/tcp/socket.h:458 *)

Record sstate : Type := mk_ss {
  sb : list item;               (* send_buffer *)
  smsgs : list item;            (* sending_msgs, include/tcp/socket.h:496 *)
  flag : bool;                  (* sending = 1, include/socket.h:849 *)
  writes : list (list item);    (* asynchronous writes in flight, with the messages their buffers point to *)
  posted : nat;                 (* do_send_msg(false) calls waiting in the strand *)
  strand : list frame;          (* call stack of the handler running in the strand; [] when none *)
  threads : list (option frame);(* application threads; None: not inside a send function *)
  ready : bool                  (* is_ready(): status = CONNECTED, include/tcp/socket.h:89 *)
}.

Inductive label : Type :=
| LEnq (prior : bool) (it : list item)  (* messages put into the send buffer *)
| LRefuse                               (* a send function returned false: the buffer is full *)
| LWrite (it : list item)               (* async_write called with buffers of these messages *)
| LOk (it : list item) | LErr (it : list item)  (* an asynchronous write of these messages completed *)
| LUp | LDown                           (* the link was established / is_ready() became false *)
| LTau.

(** shared part of the state changed by one step *)
Definition set_sb s x := mk_ss x (smsgs s) (flag s) (writes s) (posted s) (strand s) (threads s) (ready s).
Definition set_smsgs s x := mk_ss (sb s) x (flag s) (writes s) (posted s) (strand s) (threads s) (ready s).
Definition set_flag s x := mk_ss (sb s) (smsgs s) x (writes s) (posted s) (strand s) (threads s) (ready s).
Definition set_writes s x := mk_ss (sb s) (smsgs s) (flag s) x (posted s) (strand s) (threads s) (ready s).
Definition set_posted s x := mk_ss (sb s) (smsgs s) (flag s) (writes s) x (strand s) (threads s) (ready s).
Definition set_strand s x := mk_ss (sb s) (smsgs s) (flag s) (writes s) (posted s) x (threads s) (ready s).
Definition set_threads s x := mk_ss (sb s) (smsgs s) (flag s) (writes s) (posted s) (strand s) x (ready s).
Definition set_ready s x := mk_ss (sb s) (smsgs s) (flag s) (writes s) (posted s) (strand s) (threads s) x.

(** one atomic operation: the state, what the thread does next (None: the call returned), what was observable.
    [here]: running inside the strand *)
Definition exec (c : send_cfg) (here : bool) (s : sstate) (f : frame) : sstate * option frame * label :=
  match f with
  | FUser => (s, Some FUser, LTau)
  | FCheck it p ovf =>                                  (* include/socket.h:264-269, 261 *)
      if ovf || (bytes_of (sc_W c) (sb s) <? send_limit c) then (s, Some (FEnq it p), LTau) else (s, None, LRefuse)
  | FEnq it p =>                                        (* include/socket.h:542-543, 556-557, 574-575 *)
      (set_sb s (if p then it ++ sb s else sb s ++ it), Some FReady, LEnq p it)
  | FReady => (s, if ready s then Some FLoad else None, LTau)
  | FLoad =>
      if flag s then (s, None, LTau)
      else if here then (s, Some (FDo false), LTau) else (set_posted s (S (posted s)), None, LTau)
  | FDo b => if negb b && flag s then (s, None, LTau) else (set_flag s true, Some FMove, LTau)
  | FMove =>
      let '(out, q) := q_out_bytes (sc_W c) (mk_q (sb s) (bytes_of (sc_W c) (sb s))) (batch_size c) in
      (set_smsgs (set_sb s (qitems q)) (smsgs s ++ out), Some FBuild, LTau)
  | FBuild =>
      match smsgs s with
      | [] => (s, Some FClear, LTau)
      | m => (set_writes s (writes s ++ [m]), None, LWrite m)
      end
  | FClear => (set_flag s false, Some FEmpty, LTau)
  | FEmpty => (s, match sb s with [] => None | _ => Some (FDo false) end, LTau)
  | FSent => (set_smsgs s [], Some (FDo true), LTau)
  | FErr => (set_smsgs s [], Some FErrClear, LTau)
  | FErrClear => (set_flag s false, None, LTau)
  end.

Definition put (i : nat) (x : option frame) (l : list (option frame)) : list (option frame) :=
  firstn i l ++ [x] ++ skipn (S i) l.
Definition push (o : option frame) (st : list frame) : list frame := match o with Some f => f :: st | None => st end.
Definition drop_nth {A} (k : nat) (l : list A) : list A := firstn k l ++ skipn (S k) l.

Inductive action : Type :=
| ACall (i : nat) (it : list item) (prior overflow : bool)  (* thread i calls a send function with packed messages *)
| AThread (i : nat)                                         (* thread i executes its next operation *)
| AStrand                                                   (* the handler in the strand executes its next operation *)
| ATask                                                     (* the strand starts a queued do_send_msg(false) *)
| AUser                                                     (* the strand starts another handler that runs application code *)
| ACallS (it : list item) (prior overflow : bool)           (* application code in the strand calls a send function *)
| AUserRet                                                  (* application code in the strand returns *)
| AComplete (k : nat) (ok : bool)                           (* the k-th write in flight completed; its handler starts *)
| AUp (i : nat)       (* do_start, include/tcp/socket.h:241-248 and include/socket.h:322-334, on thread i *)
| ADown.              (* the status leaves CONNECTED, include/tcp/socket.h:280, 306, 324 *)

Definition act (c : send_cfg) (s : sstate) (a : action) : option (sstate * label) :=
  match a with
  | ACall i it p ovf =>
      match nth_error (threads s) i with
      | Some None => Some (set_threads s (put i (Some (FCheck it p ovf)) (threads s)), LTau)
      | _ => None
      end
  | AThread i =>
      match nth_error (threads s) i with
      | Some (Some f) => let '(s1, nxt, l) := exec c false s f in Some (set_threads s1 (put i nxt (threads s1)), l)
      | _ => None
      end
  | AStrand =>
      match strand s with
      | FUser :: _ | [] => None
      | f :: st => let '(s1, nxt, l) := exec c true s f in Some (set_strand s1 (push nxt st), l)
      end
  | ATask =>
      match strand s, posted s with
      | [], S n => Some (set_strand (set_posted s n) [FDo false], LTau)
      | _, _ => None
      end
  | AUser => match strand s with [] => Some (set_strand s [FUser], LTau) | _ => None end
  | ACallS it p ovf =>
      match strand s with
      | FUser :: st => Some (set_strand s (FCheck it p ovf :: FUser :: st), LTau)
      | _ => None
      end
  | AUserRet => match strand s with FUser :: st => Some (set_strand s st, LTau) | _ => None end
  | AComplete k ok =>
      match strand s, nth_error (writes s) k with
      | [], Some w =>
          (* include/tcp/socket.h:412-445 or 448-455: callbacks first *)
          Some (set_strand (set_writes s (drop_nth k (writes s))) [FUser; if ok then FSent else FErr], if ok then LOk w else LErr w)
      | _, _ => None
      end
  | AUp i =>
      (* with ST_ASIO_DELAY_CLOSE = 0 a socket is started (again) only after its asynchronous operations ended *)
      match nth_error (threads s) i, strand s, writes s, posted s with
      | Some None, [], [], O => Some (set_threads (set_ready s true) (put i (Some FReady) (threads s)), LUp)
      | _, _, _, _ => None
      end
  | ADown => Some (set_ready s false, LDown)
  end.

(** [n] application threads, nothing sent yet, not connected *)
Definition send_init (n : nat) : sstate := mk_ss [] [] false [] 0 [] (repeat None n) false.

(** an execution with what it shows; [None]: an action was not possible *)
Fixpoint acts (c : send_cfg) (s : sstate) (al : list action) : option (list label * sstate) :=
  match al with
  | [] => Some ([], s)
  | a :: al' =>
    match act c s a with
    | None => None
    | Some (s1, l) => match acts c s1 al' with None => None | Some (ls, s2) => Some (l :: ls, s2) end
    end
  end.

(** shrink_send_buffer with ST_ASIO_SHRINK_SEND_BUFFER, include/socket.h:396-416; [calc]: calc_shrink_size (default 393:
    a third of the current size). Result: its result, the discarded messages, the send buffer. The buffer is locked meanwhile. *)
Definition shrink (W limit : N) (calc : N -> N) (q : mqueue) : bool * list item * mqueue :=
  if qtotal q <? limit then (true, [], q)
  else let size := calc (qtotal q) in
    if size =? 0 then (false, [], q)
    else let '(out, q') := q_out_bytes W q size in (true, out, q').
Definition default_shrink (n : N) : N := n / 3.
