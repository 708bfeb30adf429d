(** What is required of the whole path of a message. *)
From Coq Require Import List NArith Bool.
From Verif Require Import M_Bytes M_Config M_Packer S_Packer S_Frame M_Send S_Send M_Wire S_Wire M_Rx M_Path.
From Verif Require M_Handle.
Import ListNotations.

(** what happened at the sender *)
Fixpoint wtr (t : list pev) : list wev := match t with [] => [] | PV v :: t' => v :: wtr t' | _ :: t' => wtr t' end.
(** the contents given to the send functions *)
Fixpoint asked (t : list pev) : list (list byte) := match t with [] => [] | PAsk x :: t' => arg_body x :: asked t' | _ :: t' => asked t' end.
(** what the receiving application handled on the present (last) link *)
Definition handled_now (t : list pev) : list (list byte) :=
  fold_left (fun acc e => match e with PV (WL LUp) => [] | PHandled ms => acc ++ ms | _ => acc end) t [].
(** the messages that were put into the send buffer, as frames, are those of these bodies; each of them was given to a send function, and
    not more often put into the buffer than given; the others (with an empty body) are heartbeats *)
Definition accepted (c : cfg) (t : list pev) (bodies : list (list byte)) : Prop :=
  frames (labels (wtr t)) = map (S_Frame.frame c) bodies /\
  forall b, b <> [] -> count_occ (list_eq_dec Byte.byte_eq_dec) bodies b <= count_occ (list_eq_dec Byte.byte_eq_dec) (asked t) b.
(** former links took whole messages out of the send buffer (as far as they got) *)
Definition whole_before (tr : list wev) : Prop :=
  exists k, concat (handed (labels (former tr))) = concat (firstn k (frames (labels tr))).
(** every message handled on this link is one that was put into the send buffer; those handled are consecutive ones, in order, each once;
    the ones before them are those that former links took *)
Definition delivered (c : cfg) (t : list pev) : Prop :=
  exists before now after, accepted c t (before ++ now ++ after) /\ handled_now t = shown c now /\ concat (handed (labels (former (wtr t)))) = S_Frame.wire c before /\ (ups (wtr t) <= 1 -> before = []).
(** everything that was accepted and that former links did not take has been handled *)
Definition all_delivered (c : cfg) (t : list pev) : Prop :=
  exists before now, accepted c t (before ++ now) /\ handled_now t = shown c now /\ concat (handed (labels (former (wtr t)))) = S_Frame.wire c before /\ (ups (wtr t) <= 1 -> before = []).
(** neither calls nor links begin or end; the handling function of the application accepts *)
Definition onward (a : pact) : bool :=
  match a with
  | PWire (WSend (AThread _ | AStrand | ATask | AUserRet)) | PWire (WTake _) | PWire WDone | PRead _ => true
  | PHand (M_Handle.HMove | M_Handle.HTest | M_Handle.HPost | M_Handle.HRun | M_Handle.HMark | M_Handle.HRet true | M_Handle.HSet | M_Handle.HClear | M_Handle.HRepost | M_Handle.HFire) => true
  | _ => false
  end.
(** nothing of that is possible *)
Definition at_rest {S} (c : pcfg) (u : unpk S) (s0 : S) (s : pst S) : Prop := forall a, onward a = true -> pstep c u s0 s a = None.
Definition next {S} (c : pcfg) (u : unpk S) (s0 : S) (s1 s : pst S) : Prop := exists a t, onward a = true /\ pstep c u s0 s a = Some (s1, t).
