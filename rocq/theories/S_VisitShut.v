(** Specification: the life of one link of a server and what force_shutdown() asks for. Everything is read off the trace. *)
From Coq Require Import List Arith Bool.
From Verif Require Import M_Visit.
Import ListNotations.

(** not in the pool; in the pool but not started; connected; shut down; an event that must not be. [asked]: it was visited by force_shutdown()
    or disconnect() since it was connected ([early]: since it was added to the pool) *)
Inductive phase : Type := POut | PNew (asked : bool) | PUp (asked : bool) | PDown | PWrong.
Definition lstep (early : bool) (i : nat) (p : phase) (e : ev) : phase :=
  match e with
  | EAdd j => if j =? i then match p with POut => PNew false | _ => PWrong end else p
  | EUp j => if j =? i then match p with PNew a => PUp a | _ => PWrong end else p
  | EVisit j RShut => if j =? i then match p with PNew a => PNew (early || a) | PUp _ => PUp true | _ => p end else p
  | EDown j => if j =? i then match p with PUp _ => PDown | _ => PWrong end else p
  | EDel j => if j =? i then match p with PDown => POut | _ => PWrong end else p
  | _ => p
  end.
Definition life (early : bool) (i : nat) (t : list ev) : phase := fold_left (lstep early i) t POut.

(** no handler waits and all service threads are idle *)
Definition settled (s : st) : Prop := s_pend s = [] /\ forall o, In o (s_thr s) -> o = None.
