(** safe_send_msg and sync_safe_send_msg: TCP_SAFE_SEND_MSG (include/base.h:784-797), SAFE_SEND_MSG_CHECK (681-685),
    TCP_SYNC_SEND_MSG (824-903), TCP_SYNC_SAFE_SEND_MSG (905-925) with ext::packer.
    The loops run against a list of what each attempt meets; a list that is used up means the call is still looping.
    Simplification: sleeping for 50 ms is left out. *)
From Coq Require Import List NArith Bool.
From Verif Require Import M_Bytes M_Config M_Packer.
Import ListNotations.

(** what an attempt meets: room in the send buffer (or can_overflow); is_ready() after it failed *)
Record att : Type := mk_att { room : bool; ready : bool }.
(** while (!send_msg(...)) {if (!is_ready()) return false; sleep} return true.
    Result: what the call returned (None: still looping) and the items it queued. *)
Fixpoint safe_send (c : cfg) (ndebug : bool) (x : arg) (env : list att) : res (option bool * list (list byte)) :=
  match env with
  | [] => Ok (None, [])
  | e :: env' =>
    bind (send_msg c ndebug (room e) x) (fun '(ok, items) =>
      if ok then Ok (Some true, items)
      else if ready e then safe_send c ndebug x env' else Ok (Some false, []))
  end.

(** sync_call_result, include/base.h:537 *)
Inductive result : Type := Success | NotApplicable | Timeout.
(** additionally: stopped(); the answer once the message is queued; whether a message that timed out is sent later all the same *)
Record satt : Type := mk_satt { s_room : bool; s_ready : bool; s_stop : bool; s_reply : result; s_late : bool }.
(** the argument after it was packed: the overloads taking a reference swap its content into the send buffer
    (include/ext/packer.h:112, 124-125, 137); the others copy *)
Definition emptied (byref : bool) (x : arg) : arg :=
  if byref then match x with AArray b => AArray b | AOne _ => AOne [] | ATwo _ _ => ATwo [] [] | AMany _ => AMany [] end else x.
(** one sync_send_msg: the result, the messages handed over to the OS because of it, the argument afterwards *)
Definition sync_once (c : cfg) (ndebug byref : bool) (x : arg) (e : satt) : res (result * list (list byte) * arg) :=
  bind (send_msg c ndebug (s_room e) x) (fun '(ok, items) =>
    if negb ok then Ok (NotApplicable, [], x)
    else let x' := emptied byref x in
      if s_stop e then Ok (NotApplicable, [], x')                   (* include/socket.h:582, 608, 636 *)
      else match items with
           | [] => Ok (Success, [], x')                             (* 584-588: an empty message *)
           | _ => match s_reply e with
                  | Success => Ok (Success, [concat items], x')
                  | NotApplicable => Ok (NotApplicable, [], x')
                  | Timeout => Ok (Timeout, if s_late e then [concat items] else [], x')
                  end
           end).
Fixpoint sync_safe_send (c : cfg) (ndebug byref : bool) (x : arg) (env : list satt) : res (option result * list (list byte)) :=
  match env with
  | [] => Ok (None, [])
  | e :: env' =>
    bind (sync_once c ndebug byref x e) (fun '(r, h, x') =>
      match r with
      | Success => Ok (Some Success, h)
      | _ => if s_ready e then bind (sync_safe_send c ndebug byref x' env') (fun '(r2, h2) => Ok (r2, h ++ h2)) else Ok (Some NotApplicable, h)
      end)
  end.
