(** statistic, include/base.h:334-521, with ST_ASIO_FULL_STATISTIC.

    Simplification: times (signed 64-bit numbers of ticks) and numbers of samples do not overflow; counters are modulo 2^64. *)
From Coq Require Import List NArith ZArith Bool.
Import ListNotations.

(** statistic::duration, base.h:337-382 *)
Record dur : Type := mk_dur { dsum : Z; dmin : Z; dmax : Z; dnum : Z }.
(** reset, 343 *)
Definition dur_reset : dur := mk_dur 0 0 0 0.
(** operator+=(const super&), 345-356: one more sample *)
Definition dur_sample (d : dur) (x : Z) : dur :=
  mk_dur (dsum d + x) (if ((dmin d =? 0) || (x <? dmin d))%Z then x else dmin d) (if (dmax d <? x)%Z then x else dmax d) (dnum d + 1).
(** operator+=(const duration&), 357-368 *)
Definition dur_add (d o : dur) : dur :=
  mk_dur (dsum d + dsum o) (if ((dmin d =? 0) || (dmin o <? dmin d))%Z then dmin o else dmin d) (if (dmax d <? dmax o)%Z then dmax o else dmax d) (dnum d + dnum o).
(** operator-=, 369 *)
Definition dur_sub (d o : dur) : dur := mk_dur (dsum d - dsum o) (dmin d) (dmax d) (dnum d - dnum o).
(** get_avg, 342 *)
Definition dur_avg (d : dur) : Z := if (dnum d =? 0)%Z then dsum d else Z.quot (dsum d) (dnum d).

Definition RANGE64 : N := 18446744073709551616.
Definition add64 (a b : N) : N := ((a + b) mod RANGE64)%N.
Definition sub64 (a b : N) : N := ((a + (RANGE64 - b mod RANGE64)) mod RANGE64)%N.

(** base.h:493-513; the four times are not touched by the operators *)
Record stat : Type := mk_stat {
  send_msg_sum : N; send_byte_sum : N; send_delay_sum : dur; send_time_sum : dur; pack_time_sum : dur;
  recv_msg_sum : N; recv_byte_sum : N; dispatch_delay_sum : dur; recv_idle_sum : dur; handle_time_sum : dur; unpack_time_sum : dur }.
(** reset, 415-427 *)
Definition stat_reset : stat := mk_stat 0 0 dur_reset dur_reset dur_reset 0 0 dur_reset dur_reset dur_reset dur_reset.
(** operator+=, 432-448 *)
Definition stat_add (s o : stat) : stat :=
  mk_stat (add64 (send_msg_sum s) (send_msg_sum o)) (add64 (send_byte_sum s) (send_byte_sum o))
          (dur_add (send_delay_sum s) (send_delay_sum o)) (dur_add (send_time_sum s) (send_time_sum o)) (dur_add (pack_time_sum s) (pack_time_sum o))
          (add64 (recv_msg_sum s) (recv_msg_sum o)) (add64 (recv_byte_sum s) (recv_byte_sum o))
          (dur_add (dispatch_delay_sum s) (dispatch_delay_sum o)) (dur_add (recv_idle_sum s) (recv_idle_sum o))
          (dur_add (handle_time_sum s) (handle_time_sum o)) (dur_add (unpack_time_sum s) (unpack_time_sum o)).
(** operator-=, 458-474 *)
Definition stat_sub (s o : stat) : stat :=
  mk_stat (sub64 (send_msg_sum s) (send_msg_sum o)) (sub64 (send_byte_sum s) (send_byte_sum o))
          (dur_sub (send_delay_sum s) (send_delay_sum o)) (dur_sub (send_time_sum s) (send_time_sum o)) (dur_sub (pack_time_sum s) (pack_time_sum o))
          (sub64 (recv_msg_sum s) (recv_msg_sum o)) (sub64 (recv_byte_sum s) (recv_byte_sum o))
          (dur_sub (dispatch_delay_sum s) (dispatch_delay_sum o)) (dur_sub (recv_idle_sum s) (recv_idle_sum o))
          (dur_sub (handle_time_sum s) (handle_time_sum o)) (dur_sub (unpack_time_sum s) (unpack_time_sum o)).

(** a socket's statistics: what it counted *)
Inductive sample : Type :=
| XSend (msgs bytes : N) | XRecv (msgs bytes : N)
| XTime (k : nat) (x : Z).     (* one of the seven durations, in the order of the record *)
Definition record (s : stat) (x : sample) : stat :=
  match x with
  | XSend m b => mk_stat (add64 (send_msg_sum s) m) (add64 (send_byte_sum s) b) (send_delay_sum s) (send_time_sum s) (pack_time_sum s) (recv_msg_sum s) (recv_byte_sum s) (dispatch_delay_sum s) (recv_idle_sum s) (handle_time_sum s) (unpack_time_sum s)
  | XRecv m b => mk_stat (send_msg_sum s) (send_byte_sum s) (send_delay_sum s) (send_time_sum s) (pack_time_sum s) (add64 (recv_msg_sum s) m) (add64 (recv_byte_sum s) b) (dispatch_delay_sum s) (recv_idle_sum s) (handle_time_sum s) (unpack_time_sum s)
  | XTime k x =>
      let up (i : nat) (d : dur) := if Nat.eqb k i then dur_sample d x else d in
      mk_stat (send_msg_sum s) (send_byte_sum s) (up 0%nat (send_delay_sum s)) (up 1%nat (send_time_sum s)) (up 2%nat (pack_time_sum s)) (recv_msg_sum s) (recv_byte_sum s)
              (up 3%nat (dispatch_delay_sum s)) (up 4%nat (recv_idle_sum s)) (up 5%nat (handle_time_sum s)) (up 6%nat (unpack_time_sum s))
  end.
Definition stat_of (l : list sample) : stat := fold_left record l stat_reset.

(** statistics added up in some order and grouping: [a += b] *)
Inductive tree : Type := Leaf (l : list sample) | Sum (a b : tree).
Fixpoint eval (t : tree) : stat := match t with Leaf l => stat_of l | Sum a b => stat_add (eval a) (eval b) end.
