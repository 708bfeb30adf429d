(** What the application may expect of addresses, said over what happened. *)
From Coq Require Import List NArith Bool.
From Verif Require Import M_UdpAddr.
Import ListNotations.
Open Scope N_scope.

(** going through what happened with the peer address set last and the messages not yet sent, each with the address it is meant for:
    messages leave in order, each for its address; a received message is labelled with its sender *)
Fixpoint right (peer : N) (q : list (N * N)) (tr : list pev) : bool :=
  match tr with
  | [] => true
  | XPeer a :: tr' => right a q tr'
  | XCall to m :: tr' => right peer (q ++ [(match to with Some a => a | None => peer end, m)]) tr'
  | XOut d m :: tr' => match q with (a, x) :: q' => (a =? d) && (x =? m) && right peer q' tr' | [] => false end
  | XFail m :: tr' => match q with (_, x) :: q' => (x =? m) && right peer q' tr' | [] => false end
  | XGot from label _ :: tr' => (from =? label) && right peer q tr'
  | XReset :: tr' => right peer [] tr'
  end.
(** the application never asks for connect mode *)
Definition no_mode (l : list pact) : Prop := ~ In PMode l.
(** include/config.h:828-830: for a connected socket, addresses given with a message are ignored; so either connect mode is not used, or no
    message is given an address *)
Definition as_documented (mode : bool) (l : list pact) : Prop := (mode = false /\ no_mode l) \/ forall to m, In (PSend to m) l -> to = None.
(** the application sets the peer's address only while the object is fresh (neither started nor used for sending since it was made or reset)
    and sends only to that address *)
Fixpoint one_peer (fresh : bool) (peer : N) (l : list pact) : bool :=
  match l with
  | [] => true
  | PPeer a :: l' => fresh && one_peer fresh a l'
  | PSend to _ :: l' => match to with Some a => a =? peer | None => true end && one_peer false peer l'
  | PStart _ :: l' => one_peer false peer l'
  | PReset :: l' => one_peer true peer l'
  | _ :: l' => one_peer fresh peer l'
  end.
