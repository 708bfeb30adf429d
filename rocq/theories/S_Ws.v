(** Specification of messages over a web socket link, on traces. *)
From Coq Require Import List NArith Bool.
From Verif Require Import M_Bytes M_Config M_PrefixSuffix M_Packer S_Frame S_Packer M_Ws.
Import ListNotations.
Open Scope N_scope.

(** the bodies of the send calls that succeeded, in order *)
Fixpoint sent (t : list event) : list (list byte) :=
  match t with
  | [] => []
  | ECall _ x true :: t' => arg_body x :: sent t'
  | _ :: t' => sent t'
  end.
(** the messages of a foreign sender *)
Fixpoint foreign (t : list event) : list (list byte) :=
  match t with [] => [] | EForeign m :: t' => m :: foreign t' | _ :: t' => foreign t' end.
(** the messages the peer's application was given *)
Fixpoint got (t : list event) : list (list byte) :=
  match t with [] => [] | EGot m :: t' => m :: got t' | _ :: t' => got t' end.

(** what the calls put on a stream link: the body as it is for native calls, in a frame for the others; heartbeats are
    frames without a body *)
Fixpoint stream (c : cfg) (t : list event) : list byte :=
  match t with
  | [] => []
  | ECall true x true :: t' => arg_body x ++ stream c t'
  | ECall false x true :: t' => frame c (arg_body x) ++ stream c t'
  | EBeat :: t' => frame c [] ++ stream c t'
  | _ :: t' => stream c t'
  end.

Definition prefix_of {A} (l m : list A) : Prop := exists r, m = l ++ r.

(** the sequence [l] of steps of the library makes [P] true of the whole trace *)
Definition comes (w : wcfg) (s : state) (t : list event) (P : list event -> Prop) : Prop :=
  exists l s' t', forallb own l = true /\ run w s l = Some (s', t') /\ P (t ++ t').

(** one message: the forms of the send functions that take one message *)
Definition one_message (x : arg) : bool := match x with AArray (Some _) | AOne _ => true | _ => false end.
(** the pieces an application hands over *)
Definition pieces (x : arg) : list (list byte) :=
  match x with AArray _ => [arg_body x] | AOne m => [m] | ATwo m1 m2 => [m1; m2] | AMany ms => ms end.
(** calls with valid arguments, no empty pieces and a body that is not too long *)
Definition call_ok (w : wcfg) (a : action) : Prop :=
  match a with
  | WSend _ _ x => arg_ok (wc w) x /\ fits (wc w) (arg_body x) = true /\ arg_body x <> [] /\ Forall (fun m => m <> []) (pieces x)
  | _ => True
  end.
Definition is_foreign (a : action) : bool := match a with WForeign _ => true | _ => false end.
Definition is_call (a : action) : bool := match a with WSend _ _ _ => true | _ => false end.
Definition is_beat (a : action) : bool := match a with WBeat => true | _ => false end.
(** only send_native_msg, only with one message *)
Definition plain (a : action) : bool := match a with WSend native _ x => native && one_message x | WBeat | WForeign _ => false | _ => true end.
Definition calls_only (t : list event) : list event := filter (fun e => match e with ECall _ _ _ => true | _ => false end) t.
