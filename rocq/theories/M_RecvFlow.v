(** When reads are started, include/socket.h: is_recv_buffer_available (261), check_receiving (693-715), handled_msg (717-726),
    and recv_handler, include/tcp/socket.h:347-382, up to the next do_recv_msg (366).

    Configuration: ST_ASIO_PASSIVE_RECV not defined. The link stays up (no errors). The receive buffer is represented by the number
    of bytes in it; the dispatcher (M_Dispatch.v) may remove any number at any time. The receiving strand and the handlers of
    TIMER_CHECK_RECV run concurrently. Left out: the statistics of idle time. *)
From Coq Require Import List NArith Bool Arith.
From Verif Require Import M_FTimer.
Import ListNotations.
Open Scope N_scope.

(** the receiving strand: idle, in handled_msg before check_receiving, in set_timer *)
Inductive rphase : Type := RIdle | RCheck | RSet1 | RSet2.
(** [reads]: async_read operations in progress; [rq]: do_recv_msg calls queued in rw_strand *)
Record rst : Type := mk_r { used : N; reads : nat; rq : nat; rpc : rphase; rtm : ft }.
(** do_start has called recv_msg, include/socket.h:322-334 *)
Definition r0 : rst := mk_r 0 0 1 RIdle ft_new.

Inductive rev : Type :=
| RStarted (used : N)     (* an async_read is started with that many bytes in the receive buffer *)
| RGot (n : N).           (* a read completed; it yielded messages of n bytes *)

Inductive raction : Type :=
| FRecv | FRead (n : N) | FCheck | FSetA | FSetB | FDrain (n : N) | FExpire | FBegin (k : nat) | FStep (j : nat).

(** include/socket.h:261 *)
Definition available (lim used : N) : bool := used <? lim.

Definition rstep (lim : N) (s : rst) (a : raction) : option (rst * list rev) :=
  match a, rpc s with
  (* a queued do_recv_msg runs in the strand *)
  | FRecv, RIdle => match rq s with O => None | S q => Some (mk_r (used s) (S (reads s)) q RIdle (rtm s), [RStarted (used s)]) end
  (* recv_handler up to handled_msg; messages are moved into recv_buffer *)
  | FRead n, RIdle => match reads s with O => None | S r => Some (mk_r (used s + n) r (rq s) RCheck (rtm s), [RGot n]) end
  (* check_receiving(false) and do_recv_msg, or set_timer *)
  | FCheck, RCheck => if available lim (used s) then Some (mk_r (used s) (S (reads s)) (rq s) RIdle (rtm s), [RStarted (used s)])
                      else Some (mk_r (used s) (reads s) (rq s) RSet1 (rtm s), [])
  | FSetA, RSet1 => Some (mk_r (used s) (reads s) (rq s) RSet2 (ft_set1 (rtm s)), [])
  | FSetB, RSet2 => Some (mk_r (used s) (reads s) (rq s) RIdle (ft_set2 (rtm s)), [])
  (* the dispatcher takes messages *)
  | FDrain n, _ => if n <=? used s then Some (mk_r (used s - n) (reads s) (rq s) (rpc s) (rtm s), []) else None
  (* TIMER_CHECK_RECV: check_receiving(true); false ends the timer *)
  | FExpire, _ => match ft_expire (rtm s) with Some f => Some (mk_r (used s) (reads s) (rq s) (rpc s) f, []) | None => None end
  | FBegin k, _ =>
      match ft_begin (rtm s) k (negb (available lim (used s))) with
      | Some (f, called) => Some (mk_r (used s) (reads s) (if called && available lim (used s) then S (rq s) else rq s) (rpc s) f, [])
      | None => None
      end
  | FStep j, _ => match ft_step (rtm s) j with Some f => Some (mk_r (used s) (reads s) (rq s) (rpc s) f, []) | None => None end
  | _, _ => None
  end.

Fixpoint rsteps (lim : N) (s : rst) (l : list raction) : option (rst * list rev) :=
  match l with
  | [] => Some (s, [])
  | a :: l' =>
    match rstep lim s a with
    | None => None
    | Some (s1, t1) => match rsteps lim s1 l' with None => None | Some (s2, t2) => Some (s2, t1 ++ t2) end
    end
  end.
