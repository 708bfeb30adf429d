(** Specification of load spreading. *)
From Coq Require Import List NArith ZArith Bool Arith.
From Verif Require Import M_Pump.
Import ListNotations.
Open Scope N_scope.

(** position k holds a minimum, and all before are bigger *)
Definition first_least (l : list N) (k : nat) : Prop :=
  exists x, nth_error l k = Some x /\ (forall y, In y l -> x <= y) /\ (forall j y, (j < k)%nat -> nth_error l j = Some y -> x < y).
(** any two differ by at most d *)
Definition spread (l : list N) (d : N) : Prop := forall x y, In x l -> In y l -> x <= y + d.
(** references objects hold on context k *)
Fixpoint held (k : nat) (l : list robj) : N :=
  match l with [] => 0 | r :: l' => (if (ro_ctx r =? k)%nat then ro_refs r else 0) + held k l' end.
(** the configuration is complete before the first object is constructed *)
Fixpoint contexts_first (objs : bool) (l : list rop) : bool :=
  match l with
  | [] => true
  | RNew :: l' => contexts_first true l'
  | RCtxNum _ :: l' | RCtxs _ :: l' => negb objs && contexts_first objs l'
  | _ :: l' => contexts_first objs l'
  end.

(** threads that are still there *)
Definition exited (pc : rpc) : bool := match pc with RExit => true | _ => false end.
Definition alive (s : dst) : list (nat * rpc) := filter (fun t => negb (exited (snd t))) (pcs s).
Definition alive_on (c : nat) (s : dst) : list (nat * rpc) := filter (fun t => (fst t =? c)%nat) (alive s).
(** no thread runs out of work / no exception *)
Definition has_work (a : dact) : bool := match a with DStep _ NoWork => false | _ => true end.
Definition no_throw (a : dact) : bool := match a with DStep _ (Thrown _) => false | _ => true end.
Definition goes_on (a : dact) : bool := match a with DStep _ (Thrown false) => false | _ => true end.
