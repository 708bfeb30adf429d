(** Specification of named links. *)
From Coq Require Import List Bool Arith.
From Verif Require Import M_Bytes M_Names.
Import ListNotations.
Open Scope nat_scope.

(** the link a name stands for: the one that was added under it last, if it was neither deleted nor is over *)
Definition link_step (n : nat) (c : option nat) (e : nev) : option nat :=
  match e with
  | VAdd x (Some i) => if x =? n then Some i else c
  | VDel x (Some _) => if x =? n then None else c
  | VOver i => match c with Some j => if j =? i then None else c | None => None end
  | _ => c
  end.
Definition link_of (n : nat) (tr : list nev) : option nat := fold_left (link_step n) tr None.
(** the calls answer accordingly *)
Definition answers (tr : list nev) : Prop :=
  forall a e b, tr = a ++ e :: b ->
  match e with
  | VAdd n (Some _) => link_of n a = None
  | VAdd n None => link_of n a <> None
  | VDel n r => r = link_of n a
  | VSend n _ r => r = link_of n a
  | _ => True
  end.
(** the last link added under a name, unless it was deleted (it may be over) *)
Definition last_step (n : nat) (c : option nat) (e : nev) : option nat :=
  match e with
  | VAdd x (Some i) => if x =? n then Some i else c
  | VDel x (Some _) => if x =? n then None else c
  | _ => c
  end.
Definition last_of (n : nat) (tr : list nev) : option nat := fold_left (last_step n) tr None.

(** no call reaches another link than the last one that was added under the name and not deleted; a name is refused only if it has one; ids
    of links are new *)
Definition last_ok (tr : list nev) : Prop :=
  forall a e b, tr = a ++ e :: b ->
  match e with
  | VDel n (Some i) | VSend n _ (Some i) => last_of n a = Some i
  | VAdd n None => exists i, last_of n a = Some i
  | VAdd n (Some i) => forall x, last_of x a <> Some i
  | _ => True
  end.

(** links under this name that are not over *)
Definition live_step (n : nat) (l : list nat) (e : nev) : list nat :=
  match e with
  | VAdd x (Some i) => if x =? n then i :: l else l
  | VOver i => filter (fun j => negb (j =? i)) l
  | _ => l
  end.
Definition live (n : nat) (tr : list nev) : list nat := fold_left (live_step n) tr [].
(** a name is used again only when its former links are over *)
Definition patient (tr : list nev) : Prop := forall a n i b, tr = a ++ VAdd n (Some i) :: b -> live n a = [].
(** connections can be made: every link that is over had been up or was deleted *)
Definition connects (tr : list nev) : Prop := forall a i b, tr = a ++ VOver i :: b -> In (VUp i) a \/ exists n, In (VDel n (Some i)) a.
(** the link is shut down: this side closed it, or it is over *)
Definition closed (p : phase) : bool := match p with PConnShut | PShut | POver => true | PConn | PUp => false end.
