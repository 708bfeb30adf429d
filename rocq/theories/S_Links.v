(** What is required of the sockets of a service. *)
From Coq Require Import List Bool Arith.
From Verif Require Import M_Links.
Import ListNotations.

(** a call of add_socket for x is still under way *)
Definition adding (s : lst) (x : nat) : Prop := exists a, In a (l_adders s) /\ a_sock a = x.
(** neither the application nor the peers do anything *)
Definition library (a : act) : bool := match a with LPump | LInit | LStop | LAdd _ | LAccept _ | LPeer _ => false | _ => true end.
(** the pump is stopped only when its service runs and no call of add_socket is under way, none is made until it has ended, and
    no socket is closed while it is still being added *)
Definition calm1 (s : lst) (a : act) : Prop :=
  match a with
  | LStop => l_phase s = PUp /\ l_adders s = []
  | LAdd _ => match l_phase s with PStop | PShut _ | PWait => False | _ => True end
  | LClosed x => ~ adding s x
  | _ => True
  end.
Fixpoint calm (srv : bool) (s : lst) (l : list act) : Prop :=
  match l with
  | [] => True
  | a :: l' => calm1 s a /\ match step srv s a with Some (s1, _) => calm srv s1 l' | None => True end
  end.
