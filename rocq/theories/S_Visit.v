(** Specification: functions that visit all objects. Everything is read off the trace. *)
From Coq Require Import List Arith Bool.
From Verif Require Import M_Visit.
Import ListNotations.

(** the outcome fits the function that was called *)
Definition fits (c : call) (r : seen) : bool :=
  match c, r with
  | CShut, RShut => true
  | CBroad _ _ m, RQueued m' => m =? m'
  | CBroad _ _ m, RMissed m' => m =? m'
  | CVisit _, RSeen => true
  | _, _ => false
  end.
(** a monitor: the valid objects, and the function in progress with the objects it has still to visit. It fails when objects come or go during
    a visit, when functions overlap, when an object is left out, visited twice or treated otherwise than asked. *)
Definition mstate : Type := (list nat * option (call * list nat))%type.
Definition mstep (x : mstate) (e : ev) : option mstate :=
  match e, x with
  | EAdd i, (v, None) => if existsb (Nat.eqb i) v then None else Some (v ++ [i], None)
  | EDel i, (v, None) => if existsb (Nat.eqb i) v then Some (filter (fun j => negb (j =? i)) v, None) else None
  | EBegin c, (v, None) => Some (v, Some (c, v))
  | EVisit i r, (v, Some (c, j :: l)) => if (i =? j) && fits c r then Some (v, Some (c, l)) else None
  | EReturn, (v, Some (c, [])) => Some (v, None)
  | EWire _ _, _ | EUp _, _ | EDown _, _ => Some x
  | _, _ => None
  end.
Fixpoint monitor (x : mstate) (t : list ev) : option mstate :=
  match t with [] => Some x | e :: t' => match mstep x e with Some x' => monitor x' t' | None => None end end.

(** messages queued for link i, and messages handed over to the operating system for it, since it was added *)
Definition qstep (i : nat) (q : list msg) (e : ev) : list msg :=
  match e with EAdd j => if j =? i then [] else q | EVisit j (RQueued m) => if j =? i then q ++ [m] else q | _ => q end.
Definition queued (i : nat) (t : list ev) : list msg := fold_left (qstep i) t [].
Definition wstep (i : nat) (q : list msg) (e : ev) : list msg :=
  match e with EAdd j => if j =? i then [] else q | EWire j ms => if j =? i then q ++ ms else q | _ => q end.
Definition wired (i : nat) (t : list ev) : list msg := fold_left (wstep i) t [].
(** link i is connected *)
Definition ustep (i : nat) (b : bool) (e : ev) : bool :=
  match e with EAdd j => if j =? i then false else b | EUp j => if j =? i then true else b | EDown j => if j =? i then false else b | _ => b end.
Definition is_up (i : nat) (t : list ev) : bool := fold_left (ustep i) t false.

(** whatever a broadcast leaves out is not connected at that moment *)
Fixpoint missed_only_down (seen_so_far t : list ev) : bool :=
  match t with
  | [] => true
  | e :: r => match e with EVisit i (RMissed _) => negb (is_up i seen_so_far) | _ => true end && missed_only_down (seen_so_far ++ [e]) r
  end.

(** steps of the library, and of an operating system whose peers read *)
Definition library (a : act) : bool := match a with ALock | AStep | SPick _ _ | SGo _ | PWrote _ => true | _ => false end.
(** no predicate of the application asks the pool *)
Definition tame (a : act) : bool := match a with ACall (CVisit asks) => negb asks | _ => true end.
(** all broadcasts are safe ones *)
Definition safe_only (a : act) : bool := match a with ACall (CBroad safe _ _) => safe | _ => true end.
Definition busy_with (f : call) (a : vis) : bool :=
  let same g := match f, g with CShut, CShut => true | CBroad _ _ m, CBroad _ _ m' => m =? m' | CVisit _, CVisit _ => true | _, _ => false end in
  match a with Wait g => same g | Visit g _ => same g | _ => false end.
(** some service thread is free *)
Definition free_thread (s : st) : bool := existsb (fun o => match o with None => true | _ => false end) (s_thr s).
