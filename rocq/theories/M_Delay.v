(** Closing a socket with ST_ASIO_DELAY_CLOSE greater than zero: the time at which on_close is called and the socket is given free
    to be used again or freed.

    Sources: include/socket.h:75-98 (reset), 143 (obsoleted), 150-162 (start), 428-467 (close), 788-811 (timer_handler);
    include/tracked_executor.h:71-85 (the indicator of asynchronous calls is a flag then, every call is the last one);
    include/tcp/client_socket.h:67-69 (obsoleted, reset), 172 (after_close); include/config.h:1098-1107.

    Simplifications: start, close and the handler of TIMER_DELAY_CLOSE are one step each (their races are those of M_Life.v and
    do not depend on the macro); asynchronous operations are counted, only as what the macro does not look at; nobody else stops
    this timer; reset() is called by the object pool, on sockets that are obsolete (M_Pool.v). *)
From Coq Require Import List NArith Bool.
Import ListNotations.
Open Scope N_scope.

Record dst : Type := mk_d {
  d_now : N;                 (* milliseconds *)
  d_run : bool;              (* the service is running: stopped() is false *)
  d_started : bool;          (* started_ *)
  d_need : bool;             (* need_reconnect; false for sockets that are not clients *)
  d_obs : bool;              (* obsoleted_ *)
  d_aci : bool;              (* the indicator of asynchronous calls *)
  d_tim : option N;          (* TIMER_DELAY_CLOSE is started and due at this time *)
  d_ops : nat                (* asynchronous operations in progress *)
}.
Definition d_init (need : bool) : dst := mk_d 0 true false need false false None 0.

(** with the time at which it happened; [DOnClose run]: and whether the service was running *)
Inductive dev : Type := DStarted (t : N) | DClosed (t : N) (run : bool) | DOnClose (t : N) | DReset (t : N).
Inductive dact : Type :=
| DTick (n : N)              (* time passes *)
| DRun (b : bool)            (* the service is started, stopped *)
| DStart (ok : bool)         (* start(); do_start() returns ok *)
| DClose                     (* close() *)
| DFire (ok : bool)          (* TIMER_DELAY_CLOSE's handler; do_start() would return ok *)
| DNeed (b : bool)           (* set_reconnect, force_shutdown(b), disconnect(b), graceful_shutdown(b) *)
| DBegin | DEnd              (* an asynchronous operation begins, ends *)
| DReuse (need : bool).      (* reset() *)

(** obsoleted(), include/socket.h:143, include/tcp/client_socket.h:68, include/tracked_executor.h:79 *)
Definition d_obsoleted (s : dst) : bool := negb (d_need s) && d_obs s && negb (d_aci s).

(** start(), include/socket.h:150-162 *)
Definition d_start (s : dst) (ok : bool) : dst * list dev :=
  if negb (d_started s) && match d_tim s with None => true | Some _ => false end && d_run s
  then (mk_d (d_now s) (d_run s) ok (d_need s) (d_obs s) (d_aci s) (d_tim s) (d_ops s), if ok then [DStarted (d_now s)] else [])
  else (s, []).
(** after_close(), include/tcp/client_socket.h:172 *)
Definition d_after (s : dst) (ok : bool) : dst * list dev := if d_need s then d_start s ok else (s, []).
(** the interval of TIMER_DELAY_CLOSE, include/socket.h:463 *)
Definition d_wait (D : N) : N := D * 1000 + 50.

(** [D]: ST_ASIO_DELAY_CLOSE *)
Definition dstep (D : N) (s : dst) (a : dact) : option (dst * list dev) :=
  match a with
  | DTick n => Some (mk_d (d_now s + n) (d_run s) (d_started s) (d_need s) (d_obs s) (d_aci s) (d_tim s) (d_ops s), [])
  | DRun b => Some (mk_d (d_now s) b (d_started s) (d_need s) (d_obs s) (d_aci s) (d_tim s) (d_ops s), [])
  | DStart ok => Some (d_start s ok)
  | DClose =>
      if d_started s then
        if d_run s then
          (* include/socket.h:439-464; the timers are stopped before *)
          Some (mk_d (d_now s) true false (d_need s) (d_obs s) true (Some (d_now s + d_wait D)) (d_ops s), [DClosed (d_now s) true])
        else
          (* include/socket.h:453-459 *)
          let s1 := mk_d (d_now s) false false (d_need s) (d_obs s) (d_aci s) None (d_ops s) in
          let '(s2, t) := d_after s1 false in
          Some (mk_d (d_now s2) (d_run s2) (d_started s2) (d_need s2) true (d_aci s2) (d_tim s2) (d_ops s2), DClosed (d_now s) false :: DOnClose (d_now s) :: t)
      else None
  | DFire ok =>
      match d_tim s with
      | Some due =>
          if d_run s && (due <=? d_now s) then
            (* include/socket.h:790-810 with is_last_async_call() = 1 *)
            let s1 := mk_d (d_now s) (d_run s) (d_started s) (d_need s) (d_obs s) (d_aci s) None (d_ops s) in
            let '(s2, t) := d_after s1 ok in
            Some (mk_d (d_now s2) (d_run s2) (d_started s2) (d_need s2) true false (d_tim s2) (d_ops s2), DOnClose (d_now s) :: t)
          else None
      | None => None
      end
  | DNeed b => Some (mk_d (d_now s) (d_run s) (d_started s) b (d_obs s) (d_aci s) (d_tim s) (d_ops s), [])
  | DBegin => Some (mk_d (d_now s) (d_run s) (d_started s) (d_need s) (d_obs s) (d_aci s) (d_tim s) (S (d_ops s)), [])
  | DEnd => match d_ops s with S n => Some (mk_d (d_now s) (d_run s) (d_started s) (d_need s) (d_obs s) (d_aci s) (d_tim s) n, []) | O => None end
  | DReuse need =>
      if d_obsoleted s then
        (* include/socket.h:77-97: throws while the timer is started; started_ stays *)
        match d_tim s with
        | None => Some (mk_d (d_now s) (d_run s) (d_started s) need false (d_aci s) None (d_ops s), [DReset (d_now s)])
        | Some _ => None
        end
      else None
  end.
Fixpoint drun (D : N) (s : dst) (l : list dact) : option (dst * list dev) :=
  match l with
  | [] => Some (s, [])
  | a :: l' =>
    match dstep D s a with
    | None => None
    | Some (s1, t1) => match drun D s1 l' with None => None | Some (s2, t2) => Some (s2, t1 ++ t2) end
    end
  end.
