(** Specification of the prefix/suffix protocol. *)
From Coq Require Import List NArith Bool.
From Verif Require Import M_Bytes M_Config M_PrefixSuffix.
Import ListNotations.
Open Scope N_scope.

Definition amsg (a : affix) (body : list byte) : list byte := prefix a ++ body ++ suffix a.
Definition awire (a : affix) (bodies : list (list byte)) : list byte := concat (map (amsg a) bodies).

(** a body that may be sent: it fits the buffer, and the suffix occurs in body+suffix only at the very end *)
Definition afits (c : cfg) (a : affix) (body : list byte) : Prop :=
  lenN (amsg a body) <= bufsz c /\
  forall x y, body ++ suffix a = x ++ suffix a ++ y -> y = [].

Fixpoint acomplete (a : affix) (bodies : list (list byte)) (k : N) : list (list byte) :=
  match bodies with
  | [] => []
  | b :: bs => if lenN (amsg a b) <=? k then b :: acomplete a bs (k - lenN (amsg a b)) else []
  end.

Definition ashown (c : cfg) (a : affix) (bodies : list (list byte)) : list (list byte) :=
  map (fun b => if stripped c then b else amsg a b) (filter (fun b => match b with [] => false | _ => true end) bodies).
