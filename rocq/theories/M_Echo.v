(** The echo server: every message received is sent back. M_Handle (receiving and handling messages) and M_Send (sending) of one
    socket, with the callback of echo_server/echo_server.cpp in between.

    Modelled: echo_server/echo_server.cpp:152 (on_msg_handle) and 135-147 (with ST_ASIO_DISPATCH_BATCH_MSG); the form for
    ST_ASIO_SYNC_DISPATCH (112-127), which the program advises against, is not. The send function it calls is include/base.h:704-715.

    Simplified: packing succeeds (a message the unpacker delivers is short enough for the packer) and is a function of the message;
    one life of a link, which is not closed; the callback runs in the dispatch strand, thread 0 of M_Send; thread 1 starts the link. *)
From Coq Require Import List NArith Bool Arith.
From Verif Require Import M_Bytes M_Queue M_Send.
From Verif Require M_Handle.
Import ListNotations.

(** [pk]: the items that pack_msg makes of a message *)
Record ecfg : Type := mk_ec { ec_batch : bool; ec_send : send_cfg; pk : M_Handle.msg -> list (list byte) }.
Definition hcfg (c : ecfg) : M_Handle.cfg := M_Handle.mk_c false (ec_batch c) false.

(** on_msg_handle: not running; running, with these messages still to be sent after the call in progress. [ok]: its result so far *)
Inductive cb : Type := COut | CSend (todo : list M_Handle.msg) (ok : bool).
Record est : Type := mk_e { e_h : M_Handle.hst; e_s : sstate; e_c : cb }.
Definition echo0 : est := mk_e M_Handle.handle0 (send_init 2) COut.

Inductive eact : Type :=
| ERecv (ms : list M_Handle.msg)     (* messages arrive *)
| EHandle (a : M_Handle.act)         (* the library goes on handling *)
| EBegin | ENext | EThread | EEnd    (* the callback goes on *)
| ESend (a : action).                (* the library goes on sending; the link *)

(** what the library does by itself *)
Definition h_own (a : M_Handle.act) : bool :=
  match a with M_Handle.HMove | M_Handle.HTest | M_Handle.HPost | M_Handle.HRun | M_Handle.HMark | M_Handle.HSet | M_Handle.HClear | M_Handle.HRepost | M_Handle.HFire => true | _ => false end.
Definition s_own (a : action) : bool :=
  match a with AThread i => (i =? 1)%nat | AUp i => (i =? 1)%nat | AStrand | ATask | AUserRet | AComplete _ _ | ADown => true | _ => false end.
(** move_items_out(tmp_can, 10), echo_server.cpp:141 *)
Definition greed : nat := 10.

Definition on_h (c : ecfg) (s : est) (a : M_Handle.act) (k : cb) : option (est * list M_Handle.ev * list label) :=
  match M_Handle.step (hcfg c) (e_h s) a with Some (h, e) => Some (mk_e h (e_s s) k, e, []) | None => None end.
Definition on_s (c : ecfg) (s : est) (a : action) (k : label -> cb) : option (est * list M_Handle.ev * list label) :=
  match act (ec_send c) (e_s s) a with Some (x, l) => Some (mk_e (e_h s) x (k l), [], [l]) | None => None end.

Definition estep (c : ecfg) (s : est) (a : eact) : option (est * list M_Handle.ev * list label) :=
  match a with
  | ERecv ms => on_h c s (M_Handle.HRecv ms) (e_c s)
  | EHandle a => if h_own a then on_h c s a (e_c s) else None
  | EBegin =>
      match M_Handle.h_d (e_h s), e_c s with
      | M_Handle.DIn, COut =>
          if ec_batch c then                                                              (* 137-141 *)
            if (bytes_of (sc_W (ec_send c)) (sb (e_s s)) <? send_limit (ec_send c))%N then
              let k := Nat.min greed (length (M_Handle.h_buf (e_h s))) in
              on_h c s (M_Handle.HTake k) (CSend (firstn k (M_Handle.h_buf (e_h s))) (negb (k =? 0)%nat))
            else on_h c s (M_Handle.HRet false) COut
          else match M_Handle.h_held (e_h s) with                                         (* 152 *)
               | Some m => on_s c s (ACall 0 (pk c m) false false) (fun _ => CSend [] false)
               | None => None
               end
      | _, _ => None
      end
  | ENext =>                                                                              (* 144 *)
      match e_c s with
      | CSend (m :: r) ok => on_s c s (ACall 0 (pk c m) false true) (fun _ => CSend r ok)
      | _ => None
      end
  | EThread =>
      match e_c s with
      | CSend r ok => on_s c s (AThread 0) (fun l => CSend r (match l with LEnq _ _ => true | _ => ok end))
      | COut => None
      end
  | EEnd =>
      match e_c s, nth_error (threads (e_s s)) 0 with
      | CSend [] ok, Some None => on_h c s (M_Handle.HRet ok) COut
      | _, _ => None
      end
  | ESend a => if s_own a then on_s c s a (fun _ => e_c s) else None
  end.
Fixpoint eruns (c : ecfg) (s : est) (l : list eact) : option (est * list M_Handle.ev * list label) :=
  match l with
  | [] => Some (s, [], [])
  | a :: l' => match estep c s a with
               | Some (s1, e1, b1) => match eruns c s1 l' with Some (s2, e2, b2) => Some (s2, e1 ++ e2, b1 ++ b2) | None => None end
               | None => None
               end
  end.
