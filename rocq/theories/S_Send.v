(** Specification of sending, in terms of what an execution shows. *)
From Coq Require Import List NArith Bool.
From Verif Require Import M_Bytes M_Queue M_Send S_Queue.
Import ListNotations.
Open Scope N_scope.

(** messages put into the send buffer, in order *)
Fixpoint queued (tr : list label) : list item :=
  match tr with [] => [] | LEnq _ it :: tr' => it ++ queued tr' | _ :: tr' => queued tr' end.
(** messages handed to the operating system, in order *)
Fixpoint handed (tr : list label) : list item :=
  match tr with [] => [] | LWrite it :: tr' => it ++ handed tr' | _ :: tr' => handed tr' end.
(** no message was sent with the prior flag *)
Fixpoint no_prior (tr : list label) : Prop :=
  match tr with [] => True | LEnq true _ :: _ => False | _ :: tr' => no_prior tr' end.
(** writes started, writes completed *)
Fixpoint started (tr : list label) : list (list item) :=
  match tr with [] => [] | LWrite it :: tr' => it :: started tr' | _ :: tr' => started tr' end.
Fixpoint finished (tr : list label) : list (list item) :=
  match tr with [] => [] | (LOk w | LErr w) :: tr' => w :: finished tr' | _ :: tr' => finished tr' end.
(** the link is up after the execution / a write failed on it *)
Definition up (tr : list label) : bool := fold_left (fun b l => match l with LUp => true | LDown => false | _ => b end) tr false.
Definition failed (tr : list label) : bool := fold_left (fun b l => match l with LUp => false | LErr _ => true | _ => b end) tr false.

(** nothing is going on: no thread inside a send function, nothing running or waiting in the strand, no write in flight *)
Definition idle (s : sstate) : Prop :=
  Forall (fun t => t = None) (threads s) /\ strand s = [] /\ posted s = 0%nat /\ writes s = [].

(** steps that need neither a new send call nor a change of the link: threads and handlers going on, writes succeeding *)
Definition goes_on (a : action) : bool :=
  match a with AThread _ | AStrand | ATask | AUserRet | AComplete _ true => true | _ => false end.

(** every send call of an execution respects the limit and carries at most [M] bytes *)
Definition polite (M : N) (a : action) : Prop :=
  match a with ACall _ it _ ovf | ACallS it _ ovf => ovf = false /\ total it <= M | _ => True end.
Definition in_callback (a : action) : bool := match a with ACallS _ _ _ => true | _ => false end.
(** how many callers there are: the threads, and the strand if callbacks send too *)
Definition senders (n : nat) (al : list action) : N := N.of_nat n + (if existsb in_callback al then 1 else 0).

(** the frames sent: the bytes of the items of one send call *)
Fixpoint frames (tr : list label) : list (list byte) :=
  match tr with [] => [] | LEnq _ it :: tr' => concat it :: frames tr' | _ :: tr' => frames tr' end.
(** the bytes handed to the operating system are those of whole sent frames (the last one perhaps unfinished) *)
Definition framed (tr : list label) : Prop :=
  exists fs rest, Forall (fun f => In f (frames tr)) fs /\ concat fs = concat (handed tr) ++ rest.
(** every send call put one item into the send buffer *)
Fixpoint single_items (tr : list label) : Prop :=
  match tr with [] => True | LEnq _ it :: tr' => length it = 1%nat /\ single_items tr' | _ :: tr' => single_items tr' end.
