(** What is required of services and their pump, in terms of the calls of the virtual functions that can be observed. *)
From Coq Require Import List Bool Arith.
From Verif Require Import M_Service.
Import ListNotations.

(** the life of a service *)
Inductive phase : Type := Off | Starting (* in init *) | On | Stopping (* in uninit *).
(** what was seen of one service since its construction *)
Record obs : Type := mk_o {
  o_phase : option phase;        (* None: the virtual functions were not called in the order init, uninit, init, ... *)
  o_inits : nat;                 (* calls of init since the pump was ended *)
  o_last : option bool;          (* the last result of init *)
  o_finals : nat }.              (* calls of finalize since the pump was ended *)
Definition obs0 : obs := mk_o (Some Off) 0 None 0.
Definition see (x : nat) (o : obs) (e : ev) : obs :=
  match e with
  | ENew y => if y =? x then obs0 else o
  | EInit y => if y =? x then mk_o (match o_phase o with Some Off => Some Starting | _ => None end) (S (o_inits o)) (o_last o) (o_finals o) else o
  | EInited y b => if y =? x then mk_o (match o_phase o with Some Starting => Some (if b then On else Off) | _ => None end) (o_inits o) (Some b) (o_finals o) else o
  | EUninit y => if y =? x then mk_o (match o_phase o with Some On => Some Stopping | _ => None end) (o_inits o) (o_last o) (o_finals o) else o
  | EUninited y => if y =? x then mk_o (match o_phase o with Some Stopping => Some Off | _ => None end) (o_inits o) (o_last o) (o_finals o) else o
  | EFinal y => if y =? x then mk_o (o_phase o) (o_inits o) (o_last o) (S (o_finals o)) else o
  | EEnded => mk_o (o_phase o) 0 (o_last o) 0
  | _ => o
  end.
Definition watch (x : nat) (t : list ev) : obs := fold_left (see x) t obs0.

(** the program uses the pump only outside the virtual functions and destroys only services that do not run *)
Fixpoint tame (ctx : nat) (s : pump) (l : list act) : Prop :=
  match l with
  | [] => True
  | a :: l' =>
    match a with
    | ACall c => p_stack s = [] /\ match c with CDelete x => p_on s x = false | _ => True end
    | _ => True
    end /\ match step ctx s a with Some (s1, _) => tame ctx s1 l' | None => True end
  end.
(** nothing but the library, returning virtual functions and ending threads *)
Definition library (a : act) : bool := match a with ACall _ => false | _ => true end.
(** services are not removed from the pump other than by destroying them *)
Definition removes (a : act) : bool := match a with ACall (CRemove _) | ACall (CRemoveId _) | ACall CClear => true | _ => false end.
Fixpoint count (f : ev -> bool) (t : list ev) : nat := match t with [] => 0 | e :: t' => (if f e then 1 else 0) + count f t' end.
Definition is_free (x : nat) (e : ev) : bool := match e with EFree y => y =? x | _ => false end.
Definition is_new (x : nat) (e : ev) : bool := match e with ENew y => y =? x | _ => false end.
