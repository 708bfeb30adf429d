(** What is required of a short link. *)
From Coq Require Import List Bool Arith.
From Verif Require Import M_Short.
Import ListNotations.

Fixpoint conns (t : list sev) : nat := match t with [] => 0 | EConn :: t' => S (conns t') | _ :: t' => conns t' end.
Fixpoint msgs (t : list sev) : nat := match t with [] => 0 | EMsg :: t' => S (msgs t') | _ :: t' => msgs t' end.
Definition races (t : list sev) : Prop := In ERace t.
(** one connection, for one message *)
Definition short (t : list sev) : Prop := conns t <= 1 /\ msgs t <= 1 /\ ~ races t.
(** connecting succeeds only after the sending thread made n more steps *)
Fixpoint after (n : nat) (l : list sact) : bool :=
  match l with
  | [] => true
  | SCall :: l' => after (pred n) l'
  | SUp :: l' => (n =? 0) && after n l'
  | _ :: l' => after n l'
  end.
(** registering takes this many *)
Definition registering : nat := 3.
(** the link ended k times *)
Fixpoint breaks (l : list sact) : nat := match l with [] => 0 | SBreak :: l' => S (breaks l') | _ :: l' => breaks l' end.
