(** What is required of handling messages. *)
From Coq Require Import List NArith Bool Arith.
From Verif Require Import M_Handle.
Import ListNotations.

(** what came in, in this order *)
Fixpoint received (t : list ev) : list msg :=
  match t with
  | [] => []
  | ERead ms :: t' => ms ++ received t'
  | EPad m :: t' => m :: received t'
  | _ :: t' => received t'
  end.
(** what the application took over, in this order *)
Fixpoint handled (t : list ev) : list msg :=
  match t with
  | [] => []
  | EHandled ms :: t' => ms ++ handled t'
  | _ :: t' => handled t'
  end.
(** the messages the library still has *)
Definition pending (s : hst) : list msg :=
  held s ++ h_buf s ++ match h_i s with IOn ms => ms | IMove ms _ => ms | _ => [] end.
(** those it has after on_msg had its chance *)
Definition waiting (s : hst) : list msg :=
  held s ++ h_buf s ++ match h_i s with IMove ms _ => ms | _ => [] end.
(** neither the peer nor the application does anything *)
Definition library (a : act) : bool := match a with HRecv _ | HOn _ _ | HTake _ | HRet _ => false | _ => true end.
(** every call of on_msg handles all its messages *)
Fixpoint all_at_once (c : cfg) (s : hst) (l : list act) : Prop :=
  match l with
  | [] => True
  | a :: l' => match a, h_i s with HOn k _, IOn ms => k = length ms | _, _ => True end /\
               match step c s a with Some (s1, _) => all_at_once c s1 l' | None => True end
  end.
(** no call of on_msg handles anything *)
Definition none_at_once (l : list act) : Prop := forall k re, In (HOn k re) l -> k = 0.
(** on_msg tells the truth: it has a positive result if it removed messages, see include/socket.h:346 *)
Definition truthful (l : list act) : Prop := forall k re, In (HOn k re) l -> k = 0 \/ re = true.
