(** Dispatching received messages, include/socket.h: the end of handle_msg (523-535), dispatch_msg (729),
    do_dispatch_msg (731-779), timer_handler/TIMER_DISPATCH_MSG (785-787), close (431-467) and the reconnection of
    include/tcp/client_socket.h:172 as far as they concern dispatching.

    Configuration: ST_ASIO_DISPATCH_BATCH_MSG, ST_ASIO_SYNC_RECV, ST_ASIO_SYNC_DISPATCH and ST_ASIO_PASSIVE_RECV not defined.
    The receiving strand, the dispatch strand and the timer's handlers run concurrently; each constructor of [daction] is
    one atomic step. Simplifications: recv_buffer's operations are atomic (it has a lock); memory is sequentially
    consistent; messages may arrive whenever the receiving strand is idle (M_RecvFlow.v models when reads are started). *)
From Coq Require Import List NArith Bool Arith.
From Verif Require Import M_FTimer.
Import ListNotations.
Open Scope N_scope.

Definition msg : Type := N.
(** the receiving strand in handle_msg: before dispatch_msg reads [dispatching]; about to post *)
Inductive iphase : Type := IIdle | ITest | IPost.
(** the dispatch strand in do_dispatch_msg *)
Inductive dphase : Type :=
| PIdle | PTaken (* 755: dequeued *) | PHandling (* 760: on_msg_handle runs *)
| PSet1 | PSet2 (* 767: set_timer *) | PClear (* 773 *) | PRepost (* 774 *).

(** [posted]: do_dispatch_msg calls queued in dis_strand *)
Record dst : Type := mk_d {
  up : bool; rb : list msg; dm : option msg; disp : bool; posted : nat; dpc : dphase; ipc : iphase; tm : ft
}.
Definition d0 : dst := mk_d true [] None false 0 PIdle IIdle ft_new.

Inductive dev : Type :=
| ERecv (ms : list msg)          (* messages put into the receive buffer *)
| EPresent (m : option msg)      (* on_msg_handle is called *)
| EResult (m : option msg) (ok : bool)   (* it returned *)
| EClosed | EReopened.

Inductive daction : Type :=
| DRecv (ms : list msg) | DTest | DPost
| DRun | DMark | DRet (ok : bool) | DClear | DRepost | DSetA | DSetB
| DExpire | DBegin (k : nat) | DStep (j : nat)
| DClose | DStopAgain | DReopen.

Definition set_tm (s : dst) (f : ft) (p : nat) : dst := mk_d (up s) (rb s) (dm s) (disp s) p (dpc s) (ipc s) f.

Definition dstep (s : dst) (a : daction) : option (dst * list dev) :=
  match a, ipc s, dpc s with
  (* 523-531: move_items_in; nothing to do without messages *)
  | DRecv ms, IIdle, _ =>
      Some (mk_d (up s) (rb s ++ ms) (dm s) (disp s) (posted s) (dpc s) (match ms with [] => IIdle | _ => ITest end) (tm s), [ERecv ms])
  (* 729 *)
  | DTest, ITest, _ => Some (mk_d (up s) (rb s) (dm s) (disp s) (posted s) (dpc s) (if disp s then IIdle else IPost) (tm s), [])
  | DPost, IPost, _ => Some (mk_d (up s) (rb s) (dm s) (disp s) (S (posted s)) (dpc s) IIdle (tm s), [])
  (* 755 and 777-778 *)
  | DRun, _, PIdle =>
      match posted s with
      | O => None
      | S p =>
        if disp s then Some (mk_d (up s) (rb s) (dm s) (disp s) p PTaken (ipc s) (tm s), [])
        else match rb s with
             | m :: r => Some (mk_d (up s) r (Some m) (disp s) p PTaken (ipc s) (tm s), [])
             | [] => Some (mk_d (up s) (rb s) (dm s) false p PIdle (ipc s) (tm s), [])
             end
      end
  (* 757-760 *)
  | DMark, _, PTaken => Some (mk_d (up s) (rb s) (dm s) true (posted s) PHandling (ipc s) (tm s), [EPresent (dm s)])
  (* 764-773 *)
  | DRet ok, _, PHandling =>
      Some (mk_d (up s) (rb s) (if ok then None else dm s) (disp s) (posted s) (if ok then PClear else PSet1) (ipc s) (tm s), [EResult (dm s) ok])
  | DClear, _, PClear => Some (mk_d (up s) (rb s) (dm s) false (posted s) PRepost (ipc s) (tm s), [])
  | DRepost, _, PRepost => Some (mk_d (up s) (rb s) (dm s) (disp s) (S (posted s)) PIdle (ipc s) (tm s), [])
  | DSetA, _, PSet1 => Some (mk_d (up s) (rb s) (dm s) (disp s) (posted s) PSet2 (ipc s) (ft_set1 (tm s)), [])
  | DSetB, _, PSet2 => Some (mk_d (up s) (rb s) (dm s) (disp s) (posted s) PIdle (ipc s) (ft_set2 (tm s)), [])
  (* the timer; its callback posts and returns false, 785-787, 816 *)
  | DExpire, _, _ => match ft_expire (tm s) with Some f => Some (set_tm s f (posted s), []) | None => None end
  | DBegin k, _, _ => match ft_begin (tm s) k false with Some (f, called) => Some (set_tm s f (if called then S (posted s) else posted s), []) | None => None end
  | DStep j, _, _ => match ft_step (tm s) j with Some f => Some (set_tm s f (posted s), []) | None => None end
  (* close, 444-448: stop_all_timer *)
  | DClose, _, _ => if up s then Some (mk_d false (rb s) (dm s) (disp s) (posted s) (dpc s) (ipc s) (ft_stop (tm s)), [EClosed]) else None
  (* timer_handler/TIMER_DELAY_CLOSE while other asynchronous calls exist, 790-795 *)
  | DStopAgain, _, _ => if up s then None else Some (mk_d (up s) (rb s) (dm s) (disp s) (posted s) (dpc s) (ipc s) (ft_stop (tm s)), [])
  (* timer_handler/TIMER_DELAY_CLOSE when it is the last one, after_close starts the socket again, 800-812 *)
  | DReopen, IIdle, PIdle =>
      match up s, posted s, ft_quiet (tm s) with
      | false, O, true => Some (mk_d true (rb s) (dm s) (disp s) (posted s) (dpc s) (ipc s) (tm s), [EReopened])
      | _, _, _ => None
      end
  | _, _, _ => None
  end.

Fixpoint dsteps (s : dst) (l : list daction) : option (dst * list dev) :=
  match l with
  | [] => Some (s, [])
  | a :: l' =>
    match dstep s a with
    | None => None
    | Some (s1, t1) => match dsteps s1 l' with None => None | Some (s2, t2) => Some (s2, t1 ++ t2) end
    end
  end.
