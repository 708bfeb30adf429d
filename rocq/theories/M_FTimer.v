(** One timer used by several threads at once, include/timer.h:157-205 with its atomic steps. M_Timer.v lets one thread at a
    time use a timer; the socket itself starts its dispatch timer and its receive timer from a strand while the handler of the
    former expiration may still be running in another thread (include/socket.h:723, 750 and 767; include/tcp/client_socket.h:140-143
    describes this hazard for another timer).

    Simplifications: the callback itself is one step together with the test before it; stopping is one step. *)
From Coq Require Import List NArith Bool Arith.
Import ListNotations.
Open Scope N_scope.

(** timer_handler after the callback: [HAgain]: it returned true; [HSeq]: comparing the sequence numbers; [HOff]: they were
    equal, about to set TIMER_CANCELED *)
Inductive hphase : Type := HAgain | HSeq | HOff.
(** [f_on]: status is TIMER_STARTED; [f_no]: number of starts, ti.seq is [f_no - 1] modulo 256; [f_wait]: the wait that has
    not expired; [f_q]: completed waits and whether without error; [f_run]: handlers being run.
    Waits are named by the value of [f_no] when they were started. *)
Record ft : Type := mk_ft { f_on : bool; f_no : N; f_wait : option N; f_q : list (N * bool); f_run : list (hphase * N) }.
Definition ft_new : ft := mk_ft false 0 None [] [].
Definition same_seq (a b : N) : bool := a mod 256 =? b mod 256.
Definition remove_at {A} (k : nat) (l : list A) : list A := firstn k l ++ skipn (S k) l.
Definition abort (f : ft) : list (N * bool) := match f_wait f with Some w => f_q f ++ [(w, false)] | None => f_q f end.

(** start_timer, include/timer.h:162-167: the status, and expires_after cancels the pending wait *)
Definition ft_set1 (f : ft) : ft := mk_ft true (f_no f) None (abort f) (f_run f).
(** include/timer.h:170-171: ++ti.seq and async_wait *)
Definition ft_set2 (f : ft) : ft := mk_ft (f_on f) (f_no f + 1) (Some (f_no f + 1)) (f_q f) (f_run f).
(** stop_timer, include/timer.h:197-205 *)
Definition ft_stop (f : ft) : ft := if f_on f then mk_ft false (f_no f) None (abort f) (f_run f) else f.
(** the wait expires *)
Definition ft_expire (f : ft) : option ft :=
  match f_wait f with Some w => Some (mk_ft (f_on f) (f_no f) None (f_q f ++ [(w, true)]) (f_run f)) | None => None end.
(** timer_handler, include/timer.h:176-188 up to the end of the callback: whether the callback is invoked; [again]: what it
    returns *)
Definition ft_begin (f : ft) (k : nat) (again : bool) : option (ft * bool) :=
  match nth_error (f_q f) k with
  | Some (w, ok) =>
      let q := remove_at k (f_q f) in
      if f_on f && ok then Some (mk_ft (f_on f) (f_no f) (f_wait f) q ((if again then HAgain else HSeq, w) :: f_run f), true)
      else Some (mk_ft (f_on f) (f_no f) (f_wait f) q ((HSeq, w) :: f_run f), false)
  | None => None
  end.
(** the rest of timer_handler, include/timer.h:188-194: one step of the [j]-th running handler. [HAgain] with a started timer
    starts it again, here in one step *)
Definition ft_step (f : ft) (j : nat) : option ft :=
  match nth_error (f_run f) j with
  | Some (HAgain, w) =>
      if f_on f then Some (ft_set2 (ft_set1 (mk_ft (f_on f) (f_no f) (f_wait f) (f_q f) (remove_at j (f_run f)))))
      else Some (mk_ft (f_on f) (f_no f) (f_wait f) (f_q f) ((HSeq, w) :: remove_at j (f_run f)))
  | Some (HSeq, w) =>
      Some (mk_ft (f_on f) (f_no f) (f_wait f) (f_q f) (if same_seq w (f_no f) then (HOff, w) :: remove_at j (f_run f) else remove_at j (f_run f)))
  | Some (HOff, _) => Some (mk_ft false (f_no f) (f_wait f) (f_q f) (remove_at j (f_run f)))
  | None => None
  end.
(** the callback will still be invoked *)
Definition ft_live (f : ft) : bool :=
  f_on f && (match f_wait f with Some w => w =? f_no f | None => false end || existsb (fun '(w, ok) => (w =? f_no f) && ok) (f_q f)).
(** no handler of this timer is queued or running and no wait is pending *)
Definition ft_quiet (f : ft) : bool := match f_wait f, f_q f, f_run f with None, [], [] => true | _, _, _ => false end.
