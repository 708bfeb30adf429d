(** Starting and closing a socket: start, close and the handler of TIMER_DELAY_CLOSE, as a transition system in which any number of
    threads are inside these functions, at the level of their individual operations.

    Sources: include/socket.h:143 (obsoleted), 150-162 (start), 428-467 (close), 788-811 (timer_handler);
    include/tracked_executor.h:58-66 (is_async_calling, is_last_async_call); include/base.h:101-114 (scope_atomic_lock);
    include/timer.h:157-205; include/tcp/client_socket.h:68 (obsoleted), 172 (after_close).

    Configuration: ST_ASIO_DELAY_CLOSE = 0; the service is running (stopped() is false).
    Simplifications: sequentially consistent memory; asynchronous operations other than this timer are counted; the reference
    count of the asynchronous calling indicator is the number of calls in progress (every one of them holds a reference until
    its handler returned, close() always runs within one); after_close()'s start() is like a start() called by another thread;
    resetting the object for reuse (include/socket.h:75-98) is left out; testing started_ and the timer is one step. *)
From Coq Require Import List NArith Bool Arith.
From Verif Require Import M_FTimer.
Import ListNotations.
Open Scope N_scope.

(** a thread in start(), about to: test started_ and the timer (line 152); take the lock (154); test started_ (155); call
    do_start() (156); set started_ (156); unlock. [SSpin]: in do_start()'s on_connect(), which called close() in this very thread *)
Inductive sphase : Type := SCheck | STry | STest | SDo | SSpin | SSet (ok : bool) | SRel.
(** a thread in close(), about to: take the lock (430-435); test started_ (436); clear it (439); stop timers and close the
    socket (443-451); start TIMER_DELAY_CLOSE (463; two steps); unlock *)
Inductive lphase : Type := LTry | LTest | LSet | LStop | LTim1 | LTim2 | LRel.
(** a handler of TIMER_DELAY_CLOSE, about to: call is_last_async_call() (790); call on_close() (806); cancel the timer (807); call
    after_close() (808); set obsoleted_ (810); or, back in the timer, start it again, compare sequence numbers, cancel it *)
Inductive cphase : Type := CTest | COn | CCancel | CAfter | CObs | CAgain | CSeq | COff.

Record lst : Type := mk_l {
  l_started : bool;                (* started_ *)
  l_lock : bool;                   (* start_atomic *)
  l_starts : list sphase;
  l_closes : list lphase;
  l_on : bool; l_no : N;           (* TIMER_DELAY_CLOSE: its status is TIMER_STARTED; its number of starts *)
  l_wait : option N; l_q : list (N * bool);   (* its wait; its completed waits and whether without error *)
  l_cbs : list (cphase * N);
  l_ops : nat;                     (* other asynchronous calls in progress *)
  l_need : bool;                   (* need_reconnect; false for sockets that are not clients *)
  l_obs : bool                     (* obsoleted_ *)
}.
Definition l0 (need : bool) : lst := mk_l false false [] [] false 0 None [] [] 0 need false.

Inductive lev : Type := EvStarted | EvClosed | EvOnClose.

Inductive lact : Type :=
| LStart                  (* a thread calls start() *)
| LS (i : nat) (ok : bool)(* the i-th thread in start() goes on; do_start() returns ok *)
| LInline (i : nat)       (* on_connect() in start() calls a shutdown function and the strand runs close() in this thread *)
| LClose                  (* a thread calls close() *)
| LC (i : nat)            (* the i-th thread in close() goes on *)
| LApp                    (* the application begins an asynchronous operation *)
| LMore                   (* a handler begins an asynchronous operation *)
| LEnd                    (* an asynchronous operation ends *)
| LExpire | LBegin (k : nat) | LCb (j : nat)   (* TIMER_DELAY_CLOSE *)
| LNeed (b : bool).       (* set_reconnect *)

(** how many asynchronous calls are in progress *)
Definition calls (s : lst) : nat :=
  (l_ops s + length (l_closes s) + match l_wait s with Some _ => 1 | None => 0 end + length (l_q s) + length (l_cbs s))%nat.
(** obsoleted(), include/socket.h:143, include/tcp/client_socket.h:68 *)
Definition obsoleted (s : lst) : bool := negb (l_need s) && l_obs s && (calls s =? 0)%nat.

Definition upd {A} (i : nat) (x : option A) (l : list A) : list A := firstn i l ++ match x with Some y => [y] | None => [] end ++ skipn (S i) l.
Definition set_starts s x := mk_l (l_started s) (l_lock s) x (l_closes s) (l_on s) (l_no s) (l_wait s) (l_q s) (l_cbs s) (l_ops s) (l_need s) (l_obs s).
Definition set_closes s x := mk_l (l_started s) (l_lock s) (l_starts s) x (l_on s) (l_no s) (l_wait s) (l_q s) (l_cbs s) (l_ops s) (l_need s) (l_obs s).
Definition set_lock s x := mk_l (l_started s) x (l_starts s) (l_closes s) (l_on s) (l_no s) (l_wait s) (l_q s) (l_cbs s) (l_ops s) (l_need s) (l_obs s).
Definition set_started s x := mk_l x (l_lock s) (l_starts s) (l_closes s) (l_on s) (l_no s) (l_wait s) (l_q s) (l_cbs s) (l_ops s) (l_need s) (l_obs s).
Definition set_ops s x := mk_l (l_started s) (l_lock s) (l_starts s) (l_closes s) (l_on s) (l_no s) (l_wait s) (l_q s) (l_cbs s) x (l_need s) (l_obs s).
Definition set_cbs s x := mk_l (l_started s) (l_lock s) (l_starts s) (l_closes s) (l_on s) (l_no s) (l_wait s) (l_q s) x (l_ops s) (l_need s) (l_obs s).
Definition set_on s x := mk_l (l_started s) (l_lock s) (l_starts s) (l_closes s) x (l_no s) (l_wait s) (l_q s) (l_cbs s) (l_ops s) (l_need s) (l_obs s).
Definition set_obs s x := mk_l (l_started s) (l_lock s) (l_starts s) (l_closes s) (l_on s) (l_no s) (l_wait s) (l_q s) (l_cbs s) (l_ops s) (l_need s) x.
Definition set_need s x := mk_l (l_started s) (l_lock s) (l_starts s) (l_closes s) (l_on s) (l_no s) (l_wait s) (l_q s) (l_cbs s) (l_ops s) x (l_obs s).
Definition set_timer s w q := mk_l (l_started s) (l_lock s) (l_starts s) (l_closes s) (l_on s) (l_no s) w q (l_cbs s) (l_ops s) (l_need s) (l_obs s).
(** include/timer.h:162-171, 197-205 *)
Definition cancelled s : list (N * bool) := match l_wait s with Some w => l_q s ++ [(w, false)] | None => l_q s end.
Definition tim1 s : lst := set_on (set_timer s None (cancelled s)) true.
Definition tim2 s : lst := mk_l (l_started s) (l_lock s) (l_starts s) (l_closes s) (l_on s) (l_no s + 1) (Some (l_no s + 1)) (l_q s) (l_cbs s) (l_ops s) (l_need s) (l_obs s).
Definition tim_stop s : lst := if l_on s then set_on (set_timer s None (cancelled s)) false else s.

Definition sstep (s : lst) (i : nat) (ok : bool) : option (lst * list lev) :=
  let go p := set_starts s (upd i p (l_starts s)) in
  match nth_error (l_starts s) i with
  | Some SCheck => Some (go (if negb (l_started s) && negb (l_on s) then Some STry else None), [])
  | Some STry => Some (if l_lock s then go None else set_lock (go (Some STest)) true, [])
  | Some STest => Some (go (Some (if l_started s then SRel else SDo)), [])
  | Some SDo => Some (set_ops (go (Some (SSet ok))) (if ok then S (l_ops s) else l_ops s), [])
  | Some (SSet b) => Some (set_started (go (Some SRel)) b, if b then [EvStarted] else [])
  | Some SRel => Some (set_lock (go None) false, [])
  (* spinning in close(), include/socket.h:431-435, in the thread that holds the lock; what would follow is irrelevant *)
  | Some SSpin => if l_lock s then None else Some (set_lock (go (Some (SSet true))) true, [])
  | None => None
  end.
Definition cstep (s : lst) (i : nat) : option (lst * list lev) :=
  let go s p := set_closes s (upd i p (l_closes s)) in
  match nth_error (l_closes s) i with
  | Some LTry => if l_lock s then None else Some (set_lock (go s (Some LTest)) true, [])
  | Some LTest => Some (go s (Some (if l_started s then LSet else LRel)), [])
  | Some LSet => Some (set_started (go s (Some LStop)) false, [EvClosed])
  | Some LStop => Some (tim_stop (go s (Some LTim1)), [])
  | Some LTim1 => Some (tim1 (go s (Some LTim2)), [])
  | Some LTim2 => Some (tim2 (go s (Some LRel)), [])
  | Some LRel => Some (set_lock (go s None) false, [])
  | None => None
  end.
Definition bstep (s : lst) (j : nat) : option (lst * list lev) :=
  match nth_error (l_cbs s) j with
  | None => None
  | Some (p, w) =>
    let go q := set_cbs s (upd j q (l_cbs s)) in
    match p with
    (* 0: other calls are in progress: stop all other timers, return true; 1: this handler is the last call *)
    | CTest => Some (go (Some (if (calls s =? 1)%nat then COn else CAgain, w)), [])
    | COn => Some (go (Some (CCancel, w)), [EvOnClose])
    | CCancel => Some (set_on (go (Some (CAfter, w))) false, [])
    | CAfter => Some (if l_need s then set_starts (go (Some (CObs, w))) (l_starts s ++ [SCheck]) else go (Some (CObs, w)), [])
    | CObs => Some (set_obs (go (Some (CSeq, w))) true, [])
    | CAgain => Some (if l_on s then tim2 (tim1 (go None)) else go (Some (CSeq, w)), [])
    | CSeq => Some (go (if same_seq w (l_no s) then Some (COff, w) else None), [])
    | COff => Some (set_on (go None) false, [])
    end
  end.
Definition lstep (s : lst) (a : lact) : option (lst * list lev) :=
  match a with
  | LStart => Some (set_starts s (l_starts s ++ [SCheck]), [])
  | LS i ok => sstep s i ok
  | LInline i => match nth_error (l_starts s) i with Some SDo => Some (set_starts s (upd i (Some SSpin) (l_starts s)), []) | _ => None end
  | LClose => Some (set_closes s (l_closes s ++ [LTry]), [])
  | LC i => cstep s i
  | LApp => Some (set_ops s (S (l_ops s)), [])
  | LMore => match l_ops s with O => None | S n => Some (set_ops s (S (S n)), []) end
  | LEnd => match l_ops s with O => None | S n => Some (set_ops s n, []) end
  | LExpire => match l_wait s with Some w => Some (set_timer s None (l_q s ++ [(w, true)]), []) | None => None end
  | LBegin k =>
      match nth_error (l_q s) k with
      | Some (w, ok) => Some (set_cbs (set_timer s (l_wait s) (remove_at k (l_q s))) (l_cbs s ++ [(if l_on s && ok then CTest else CSeq, w)]), [])
      | None => None
      end
  | LCb j => bstep s j
  | LNeed b => Some (set_need s b, [])
  end.
Fixpoint lsteps (s : lst) (l : list lact) : option (lst * list lev) :=
  match l with
  | [] => Some (s, [])
  | a :: l' =>
    match lstep s a with
    | None => None
    | Some (s1, t1) => match lsteps s1 l' with None => None | Some (s2, t2) => Some (s2, t1 ++ t2) end
    end
  end.
