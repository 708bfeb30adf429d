(** What a transfer may do to files. *)
From Coq Require Import List Bool Arith.
From Verif Require Import M_Keep.
Import ListNotations.

Section K.
Context {B : Type}.
(** the contents differ at most in file f *)
Definition only (f : nat) (d d' : nat -> option (list B)) : Prop := forall g, g <> f -> d' g = d g.
Definition same (d d' : nat -> option (list B)) : Prop := forall g, d' g = d g.
(** one transfer: the user names a file once, in the first action *)
Definition user (a : kact) : bool := match a with UGet _ | UPut _ => true | _ => false end.
Definition alone (l : list kact) : Prop := forall a, In a l -> user a = false.
(** x is a beginning of y *)
Definition begins (x y : list B) : Prop := exists z, y = x ++ z.
(** what became of the file: it is as it was, or it is a beginning of the source, if there is one, or empty *)
Definition rest_of (old new src : option (list B)) : Prop :=
  new = old \/ exists x, new = Some x /\ match src with Some y => begins x y | None => x = [] end.
End K.
