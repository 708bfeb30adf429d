(** The bytes a TCP link carries: the sending side (M_Send.v) on top of an operating system that takes the bytes of a write piece by
    piece, with graceful and forced shutdowns, links that break, and further links over the same socket object.

    Sources: include/tcp/socket.h:230-231 (force_shutdown, graceful_shutdown), 241-248 (do_start), 299 (_force_shutdown), 300-316
    (_graceful_shutdown), 318-327 (shutdown), 384-408 (do_send_msg), 410-460 (send_handler: on an error the messages are given to
    on_send_error, which by default writes a log entry, 268-269; the link is left as it is); include/socket.h:428-467 (close).

    Simplifications: those of M_Send.v; boost::asio::async_write is a composed operation that hands over its buffers in order and ends
    with success when all bytes were taken and with an error otherwise; whatever was taken reaches the peer, in order (TCP); a write on
    a link whose sending half is shut down fails; the socket is not reset between two links (a client that connects again). *)
From Coq Require Import List NArith Bool Arith.
From Verif Require Import M_Bytes M_Queue M_Send.
Import ListNotations.
Open Scope nat_scope.

Record wst : Type := mk_w {
  w_s : sstate;      (* the sending side *)
  w_off : nat;       (* bytes of the write in flight the system has taken *)
  w_open : bool      (* the system takes bytes: the link is neither broken nor shut down for sending *)
}.
Definition w_init (n : nat) : wst := mk_w (send_init n) 0 false.

(** what an observer of the library and of the wire sees *)
Inductive wev : Type :=
| WL (l : label)            (* what the sending side shows *)
| WBytes (d : list byte)    (* bytes put on the wire *)
| WShut                     (* a graceful shutdown begins *)
| WGlitch.                  (* a write failed though the link goes on working *)

Inductive wact : Type :=
| WSend (a : action)   (* callers and handlers go on, see M_Send.v *)
| WTake (n : nat)      (* the system takes n more bytes of the write in flight *)
| WDone                (* all bytes were taken: the handler runs *)
| WFail                (* a write on a link that takes no more bytes fails: the handler runs *)
| WErr                 (* a write fails for another reason, for example for want of buffers or because the application cancelled it *)
| WGraceful | WForce   (* the shutdown functions reach the strand *)
| WBreak               (* the link breaks *)
| WUp (i : nat).       (* the next link is established *)

(** completions and the state of the link are left to the actions above *)
Definition inner (a : action) : bool := match a with AComplete _ _ | AUp _ | ADown => false | _ => true end.
(** functions dispatched to the strand run when it is free or at once when called from inside *)
Definition in_strand (s : sstate) : bool := match strand s with [] | FUser :: _ => true | _ => false end.
Definition lift (o : option (sstate * label)) (off : nat) (open : bool) (more : list wev) : option (wst * list wev) :=
  match o with Some (s, l) => Some (mk_w s off open, WL l :: more) | None => None end.

Definition wstep (c : send_cfg) (s : wst) (a : wact) : option (wst * list wev) :=
  match a with
  | WSend a => if inner a then lift (act c (w_s s) a) (w_off s) (w_open s) [] else None
  | WTake n =>
      match writes (w_s s) with
      | w :: _ =>
          if w_open s && (0 <? n) && (w_off s + n <=? length (concat w))
          then Some (mk_w (w_s s) (w_off s + n) (w_open s), [WBytes (firstn n (skipn (w_off s) (concat w)))]) else None
      | [] => None
      end
  | WDone =>
      match writes (w_s s) with
      | w :: _ => if w_off s =? length (concat w) then lift (act c (w_s s) (AComplete 0 true)) 0 (w_open s) [] else None
      | [] => None
      end
  | WFail =>
      match writes (w_s s) with
      | w :: _ => if negb (w_open s) && (w_off s <? length (concat w)) then lift (act c (w_s s) (AComplete 0 false)) 0 (w_open s) [] else None
      | [] => None
      end
  | WErr =>
      match writes (w_s s) with
      | w :: _ => if w_open s && (w_off s <? length (concat w)) then lift (act c (w_s s) (AComplete 0 false)) 0 (w_open s) [WGlitch] else None
      | [] => None
      end
  | WGraceful =>                                  (* include/tcp/socket.h:300-316 *)
      if in_strand (w_s s) && ready (w_s s) then lift (act c (w_s s) ADown) (w_off s) false [WShut] else None
  | WForce =>                                     (* include/tcp/socket.h:299, 318-327 *)
      if in_strand (w_s s) then lift (act c (w_s s) ADown) (w_off s) false [] else None
  | WBreak => Some (mk_w (w_s s) (w_off s) false, [])
  | WUp i => if ready (w_s s) then None else lift (act c (w_s s) (AUp i)) 0 true []
  end.

Fixpoint wrun (c : send_cfg) (s : wst) (l : list wact) : option (wst * list wev) :=
  match l with
  | [] => Some (s, [])
  | a :: l' =>
    match wstep c s a with
    | None => None
    | Some (s1, t1) => match wrun c s1 l' with None => None | Some (s2, t2) => Some (s2, t1 ++ t2) end
    end
  end.
