(** What is required of receiving on demand. *)
From Coq Require Import List NArith Bool Arith.
From Verif Require Import M_Passive.
Import ListNotations.

Fixpoint count (f : ev -> bool) (t : list ev) : nat := match t with [] => 0 | e :: t' => (if f e then 1 else 0) + count f t' end.
Definition is_ask (e : ev) : bool := match e with EAsk => true | _ => false end.
Definition is_read (e : ev) : bool := match e with ERead => true | _ => false end.
(** the messages of a read reach somebody *)
Definition gives (e : ev) : list N := match e with EReturn (Success ms) => ms | EAsync ms => ms | _ => [] end.
Definition takes (e : ev) : list N := match e with EGot ms => ms | _ => [] end.
Definition given (t : list ev) : list N := concat (map gives t).
Definition taken (t : list ev) : list N := concat (map takes t).
(** a call of sync_recv_msg came back with messages or because the link has failed *)
Definition answer (e : ev) : bool := match e with EReturn (Success _) | EReturn NotApplicable => true | _ => false end.
(** the receiving side, and the peer, go on *)
Definition library (a : act) : bool := match a with PRun | PData _ _ | PErr | PHandle | PFail => true | _ => false end.
(** sync_recv_msg is called only when the link is ready *)
Fixpoint punctual (c : cfg) (s : pst) (l : list act) : Prop :=
  match l with
  | [] => True
  | a :: l' => match a with PCall _ => p_ready s = true | _ => True end /\
               match step c s a with Some (s1, _) => punctual c s1 l' | None => True end
  end.
(** the application receives by sync_recv_msg without a time limit only, and no read ends with messages and an error at once *)
Definition purely_sync (a : act) : bool := match a with PRecv | PCall true | PTime | PData _ true => false | _ => true end.
