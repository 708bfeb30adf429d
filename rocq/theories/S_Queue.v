(** Specification of a message queue: an ideal double-ended queue. *)
From Coq Require Import List NArith Bool.
From Verif Require Import M_Bytes M_Queue.
Import ListNotations.
Open Scope N_scope.

(** mathematical size of some messages *)
Fixpoint total (l : list (list byte)) : N := match l with [] => 0 | m :: ms => lenN m + total ms end.

(** [a] is the shortest non-empty beginning of [l] whose size reaches [n]; all of [l] if none does; [b] is the rest *)
Definition batch (n : N) (l a b : list (list byte)) : Prop :=
  a ++ b = l /\ (l <> [] -> a <> []) /\ (b <> [] -> n <= total a) /\
  (forall p r, a = p ++ r -> p <> [] -> r <> [] -> total p < n).

(** what an operation must hand out and leave *)
Definition ideal (o : qop) (l out l' : list (list byte)) : Prop :=
  match o with
  | QEnqueue m => out = [] /\ l' = l ++ [m]
  | QEnqueueFront m => out = [] /\ l' = m :: l
  | QMoveIn src _ => out = [] /\ l' = l ++ src
  | QMoveInFront src _ => out = [] /\ l' = src ++ l
  | QPop => out ++ l' = l /\ lenN out = N.min 1 (lenN l)
  | QOutNum n => out ++ l' = l /\ lenN out = N.min n (lenN l)
  | QOutBytes n => batch n l out l'
  | QSwap can => out = l /\ l' = can
  | QClear => out = [] /\ l' = []
  end.

(** a size argument of the move_items_in functions is 0 or the size of the source *)
Definition qop_ok (o : qop) : Prop :=
  match o with QMoveIn src sz | QMoveInFront src sz => sz = 0 \/ sz = total src | _ => True end.
(** what the queue holds (and gets) fits the address space *)
Definition qop_adds (o : qop) : N :=
  match o with
  | QEnqueue m | QEnqueueFront m => lenN m
  | QMoveIn src _ | QMoveInFront src _ => total src
  | QSwap can => total can
  | _ => 0
  end.
