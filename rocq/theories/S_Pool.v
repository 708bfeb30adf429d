(** What the users of an object pool rely on. *)
From Coq Require Import List NArith Bool Arith.
From Verif Require Import M_Pool.
Import ListNotations.
Open Scope N_scope.

(** the valid objects *)
Definition valid (s : pool) : list nat := map snd (can s).
(** all objects the pool keeps: valid, invalid, or on the way to the invalid ones *)
Definition kept (s : pool) : list nat := valid s ++ inv s ++ concat (map frame_ptrs (pend s)).

(** The discipline some properties need: an object is renamed only while it is valid, added only if the pool
    does not keep it already, and deleted only if no other valid object has its id. *)
Definition careful (s : pool) (a : pact) : Prop :=
  match a with
  | PInit p _ => In p (valid s)
  | PChange2 k => forall p old id, nth_error (pend s) k = Some (FChg p old id) -> In p (valid s)
  | PAdd p => ~ In p (kept s)
  | PDel p => forall q, In q (valid s) -> o_id (obj s q) = o_id (obj s p) -> q = p
  | _ => True
  end.
Fixpoint careful_run (reuse : bool) (s : pool) (al : list pact) : Prop :=
  match al with
  | [] => True
  | a :: al' => careful s a /\ match pstep reuse s a with Some (s1, _) => careful_run reuse s1 al' | None => True end
  end.

(** ids given by create_object, in order *)
Fixpoint created_ids (tr : list pev) : list N :=
  match tr with
  | [] => []
  | EvNew _ id :: tr' | EvReuse _ id :: tr' => id :: created_ids tr'
  | _ :: tr' => created_ids tr'
  end.

(** objects that entered the pool and objects it gave away: reused, taken over or freed *)
Definition enters (e : pev) : list nat := match e with EvAdd p true => [p] | _ => [] end.
Definition leaves (e : pev) : list nat := match e with EvReuse p _ | EvTake _ p _ | EvFree p => [p] | _ => [] end.
Definition entered (tr : list pev) : list nat := concat (map enters tr).
Definition left (tr : list pev) : list nat := concat (map leaves tr).
