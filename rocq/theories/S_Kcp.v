(** What is required of a reliable UDP socket. *)
From Coq Require Import List NArith Bool.
From Verif Require Import M_Kcp.
Import ListNotations.
Open Scope N_scope.

Definition sel (f : ev -> option msg) (t : list ev) : list msg := flat_map (fun e => match f e with Some m => [m] | None => [] end) t.
Definition completed : list ev -> list msg := sel (fun e => match e with EDone m => Some m | _ => None end).
Definition given : list ev -> list msg := sel (fun e => match e with EGive m => Some m | _ => None end).
Definition reported : list ev -> list msg := sel (fun e => match e with ESent m => Some m | _ => None end).
(** really on its way: taken over by KCP, or put on the wire *)
Definition taken : list ev -> list msg := sel (fun e => match e with EKcp m | EWire m => Some m | _ => None end).
(** the messages the application has sent *)
Definition asked (l : list act) : list msg := flat_map (fun a => match a with KSend m => [m] | _ => [] end) l.
Definition fits (c : cfg) (m : msg) : Prop := (c_debug c = false \/ 0 < len m) /\ len m <= c_buf c.

Definition is_raw (e : ev) : bool := match e with ERaw _ | EWire _ => true | _ => false end.
Definition is_gone (e : ev) : bool := match e with EGone => true | _ => false end.
Definition connects (l : list act) : bool := forallb (fun a => match a with KStart true x => x | _ => true end) l.
Definition binds (l : list act) : bool := forallb (fun a => match a with KStart x _ => x | _ => true end) l.
Definition starts (l : list act) : bool := existsb (fun a => match a with KStart true _ => true | _ => false end) l.
(** the application creates a control block only when the socket is completely closed *)
Fixpoint tidy (c : cfg) (s : kst) (l : list act) : Prop :=
  match l with
  | [] => True
  | a :: l' => (a = KCreate -> k_closing s = false) /\ match step c s a with Some (s1, _) => tidy c s1 l' | None => True end
  end.
Definition library (a : act) : bool := match a with KLeave | KUpdate => true | _ => false end.

(** something that only a control block can do *)
Definition is_kcp (e : ev) : bool := match e with EDone _ | EGive _ | EKcp _ | EUpdate => true | _ => false end.
Definition creates (l : list act) : bool := existsb (fun a => match a with KCreate => true | _ => false end) l.
