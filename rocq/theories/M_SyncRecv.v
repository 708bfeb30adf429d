(** Synchronous receiving, include/socket.h with ST_ASIO_SYNC_RECV: sync_recv_msg (282-303), sync_recv_waiting (680-690),
    the first part of handle_msg (488-501), handle_error (469-481) and close (439-442).

    Any number of callers, one receiving strand and a closing thread. The critical sections under sync_recv_mutex are atomic
    steps; [started_] is written without the mutex, so testing a wait's predicate and going to sleep are two steps with the
    mutex held in between ([CBlock], [RBlock]). Notifications and spurious wake-ups follow the C++ standard.
    Simplifications: stopped() is false; one life of the link (no reconnection); ST_ASIO_PASSIVE_RECV (reads only start when
    asked for) restricts when data arrives and is covered by leaving that open; dispatching is one step. *)
From Coq Require Import List NArith Bool Arith.
Import ListNotations.

Definition msg : Type := N.
(** include/socket.h:854 *)
Inductive srs : Type := NotReq | Req | Resp | RespFail.
(** sync_call_result, include/base.h:537 *)
Inductive result : Type := Success (ms : list msg) | NotApplicable | Duplicate | Timeout.
(** the caller that passed the duplicate check; the flag: it has a time limit *)
Inductive cph : Type := CNone | CBlock (timed : bool) | CWait (timed : bool) | CWake (timed : bool) | CExpired.
(** the receiving strand: reading; in handle_msg or handle_error before the lock; waiting; finished with this link *)
Inductive kind : Type := KData | KErr.
Inductive rph : Type := RIdle | RHave (k : kind) | RBlock (k : kind) | RWait (k : kind) | RWake (k : kind) | RStop.

Record yst : Type := mk_y { sr : srs; started : bool; closing : bool; temp : list msg; cpc : cph; rpc : rph }.
Definition y0 : yst := mk_y NotReq true false [] CNone RIdle.

Inductive yev : Type :=
| EArrive (ms : list msg)      (* unpacked messages of one read *)
| EReturn (r : result)         (* a sync_recv_msg call returns *)
| EDispatch (ms : list msg).   (* handed over to asynchronous dispatching *)

Inductive yaction : Type :=
| SCall (timed : bool) | SBlock | SSpurC | STime | SCont
| SArrive (ms : list msg) | SErr | SHandle | SRBlock | SSpurR | SRCont
| SClose | SNotify.

Definition mutex_free (s : yst) : bool :=
  match cpc s, rpc s with CBlock _, _ => false | _, RBlock _ => false | _, _ => true end.
Definition wake_c (c : cph) : cph := match c with CWait t => CWake t | _ => c end.
Definition wake_r (r : rph) : rph := match r with RWait k => RWake k | _ => r end.
(** the wait's predicate, 683 *)
Definition cpred (s : yst) : bool := negb (started s) || match sr s with Req => false | _ => true end.
(** 495 and 478 *)
Definition waits_for (k : kind) : srs := match k with KData => Resp | KErr => RespFail end.
Definition sr_eqb (a b : srs) : bool := match a, b with NotReq, NotReq | Req, Req | Resp, Resp | RespFail, RespFail => true | _, _ => false end.
Definition rpred (s : yst) (k : kind) : bool := negb (started s) || negb (sr_eqb (sr s) (waits_for k)).

(** the end of sync_recv_msg, 296-302; notify_one can only meet the receiving strand *)
Definition finish (s : yst) : yst * list yev :=
  match sr s with
  | Resp => (mk_y NotReq (started s) (closing s) [] CNone (wake_r (rpc s)), [EReturn (Success (temp s))])
  | _ => (mk_y NotReq (started s) (closing s) (temp s) CNone (wake_r (rpc s)), [EReturn NotApplicable])
  end.
(** the rest of handle_msg after the synchronous part *)
Definition dispatch (s : yst) : yst * list yev := (mk_y (sr s) (started s) (closing s) [] (cpc s) RIdle, [EDispatch (temp s)]).
(** after the wait in handle_msg (496-499) or handle_error *)
Definition resume (s : yst) (k : kind) : yst * list yev :=
  match k with
  | KErr => (mk_y (sr s) (started s) (closing s) (temp s) (cpc s) RStop, [])
  | KData =>
    match sr s, temp s with
    | Resp, _ => (mk_y (sr s) (started s) (closing s) (temp s) (cpc s) RStop, [])
    | _, [] => (mk_y (sr s) (started s) (closing s) (temp s) (cpc s) RIdle, [])
    | _, _ => dispatch s
    end
  end.

Definition ystep (s : yst) (a : yaction) : option (yst * list yev) :=
  match a with
  (* 284-295 *)
  | SCall t =>
      if negb (mutex_free s) then None
      else match sr s with
           | NotReq => if started s then Some (mk_y Req (started s) (closing s) (temp s) (CBlock t) (rpc s), [])
                       else Some (finish (mk_y Req (started s) (closing s) (temp s) (CBlock t) (rpc s)))
           | _ => Some (s, [EReturn Duplicate])
           end
  | SBlock => match cpc s with CBlock t => Some (mk_y (sr s) (started s) (closing s) (temp s) (CWait t) (rpc s), []) | _ => None end
  | SSpurC => match cpc s with CWait t => Some (mk_y (sr s) (started s) (closing s) (temp s) (CWake t) (rpc s), []) | _ => None end
  | STime => match cpc s with CWait true => Some (mk_y (sr s) (started s) (closing s) (temp s) CExpired (rpc s), []) | _ => None end
  (* the caller has the mutex again, 684-689 *)
  | SCont =>
      if negb (mutex_free s) then None
      else match cpc s with
           | CWake t => if cpred s then Some (finish s) else Some (mk_y (sr s) (started s) (closing s) (temp s) (CBlock t) (rpc s), [])
           | CExpired => if cpred s then Some (finish s)
                         else Some (mk_y NotReq (started s) (closing s) (temp s) CNone (wake_r (rpc s)), [EReturn Timeout])
           | _ => None
           end
  | SArrive ms => match rpc s with RIdle => Some (mk_y (sr s) (started s) (closing s) (temp s ++ ms) (cpc s) (RHave KData), [EArrive ms]) | _ => None end
  | SErr => match rpc s with RIdle => Some (mk_y (sr s) (started s) (closing s) (temp s) (cpc s) (RHave KErr), []) | _ => None end
  (* 489-495, 472-478 *)
  | SHandle =>
      match rpc s with
      | RHave k =>
        if negb (mutex_free s) then None
        else match sr s, k with
             | Req, _ =>
                 let s1 := mk_y (waits_for k) (started s) (closing s) (temp s) (wake_c (cpc s)) (RBlock k) in
                 if started s then Some (s1, []) else Some (resume s1 k)
             | _, KData => Some (dispatch s)
             | _, KErr => Some (mk_y (sr s) (started s) (closing s) (temp s) (cpc s) RStop, [])
             end
      | _ => None
      end
  | SRBlock => match rpc s with RBlock k => Some (mk_y (sr s) (started s) (closing s) (temp s) (cpc s) (RWait k), []) | _ => None end
  | SSpurR => match rpc s with RWait k => Some (mk_y (sr s) (started s) (closing s) (temp s) (cpc s) (RWake k), []) | _ => None end
  | SRCont =>
      match rpc s with
      | RWake k =>
        if negb (mutex_free s) then None
        else if rpred s k then Some (resume s k)
        else Some (mk_y (sr s) (started s) (closing s) (temp s) (cpc s) (RBlock k), [])
      | _ => None
      end
  (* close, 439-442: started_ is cleared without the mutex, then everybody is notified *)
  | SClose => if started s then Some (mk_y (sr s) false true (temp s) (cpc s) (rpc s), []) else None
  | SNotify => if closing s then Some (mk_y (sr s) (started s) false (temp s) (wake_c (cpc s)) (wake_r (rpc s)), []) else None
  end.

Fixpoint ysteps (s : yst) (l : list yaction) : option (yst * list yev) :=
  match l with
  | [] => Some (s, [])
  | a :: l' =>
    match ystep s a with
    | None => None
    | Some (s1, t1) => match ysteps s1 l' with None => None | Some (s2, t2) => Some (s2, t1 ++ t2) end
    end
  end.
