(** What sessions of file transfers are to do, in terms of the calls, the files and what both sides report. *)
From Coq Require Import List ZArith Bool Arith.
From Verif Require Import M_Bytes M_File M_FileLink.
Import ListNotations.
Open Scope Z_scope.

(** what must not happen *)
Definition harm (e : fev) : bool := match e with EIgnored _ | EDropped _ | EAbort | EGarbled | EClosed | EOverflow => true | _ => false end.
(** what must not happen to a server whatever its clients send *)
Definition crash (e : fev) : bool := match e with EAbort | EClosed | EOverflow => true | _ => false end.

(** the part of a file link [idx] of [num] is to transfer: equal parts, the last one takes the rest *)
Definition part_of (num idx : Z) (d : list byte) (o : Z) (l : list byte) : Prop :=
  o = Z.of_nat (length d) / num * idx /\
  Z.of_nat (length l) = (if idx =? num - 1 then Z.of_nat (length d) - o else Z.of_nat (length d) / num) /\
  exists x y, d = x ++ l ++ y /\ Z.of_nat (length x) = o.
(** every transfer that ended put the right bytes of the right file at the right place *)
Definition exact_ev (c : fcfg) (e : fev) : Prop :=
  match e with
  | EGot f o l => exists d, F c f = Some d /\ part_of (num c) (idx c) d o l
  | EStored f o l => exists d, C c f = Some d /\ part_of (num c) (idx c) d o l
  | ENoGet f => F c f = None
  | ENoPut f => C c f = None \/ U c f = false
  | _ => True
  end.

(** the transfers asked for, and those that ended, in order; true: a download *)
Definition asked_ev (e : fev) : list (bool * nat) := match e with EGet f => [(true, f)] | EPut f => [(false, f)] | _ => [] end.
Definition ended_ev (e : fev) : list (bool * nat) :=
  match e with EGot f _ _ | ENoGet f => [(true, f)] | ESent f | ENoPut f | EPut0 f => [(false, f)] | _ => [] end.
Definition asked (t : list fev) := flat_map asked_ev t.
Definition ended (t : list fev) := flat_map ended_ev t.
(** the files the client has sent, and those the server has written *)
Definition sent_ev (e : fev) : list nat := match e with ESent f => [f] | _ => [] end.
Definition stored_ev (e : fev) : list nat := match e with EStored f _ _ => [f] | _ => [] end.
Definition sent (t : list fev) := flat_map sent_ev t.
Definition stored (t : list fev) := flat_map stored_ev t.

(** the client is the one of this package *)
Definition own (a : fact) : bool := match a with CForeign _ => false | _ => true end.
(** the server, and a client of somebody else *)
Definition serving (a : fact) : bool := match a with CForeign _ | STake _ | SSent | SClear => true | _ => false end.
(** not a call of the user *)
Definition inner (a : fact) : bool := match a with CGet _ | CTrunc _ | CPut _ | CTalk | CForeign _ => false | _ => true end.

(** the server is not behind with its own writes when it handles an order (the order for the contents of a file is handled at any time) *)
Definition prompt1 (s : fst) (a : fact) : Prop :=
  match a, f_cs s with
  | STake _, IM (O1 _ _) :: _ => True
  | STake _, IM _ :: _ => v_send (f_v s) = None
  | _, _ => True
  end.
Fixpoint prompt (c : fcfg) (s : fst) (l : list fact) : Prop :=
  match l with
  | [] => True
  | a :: l' => prompt1 s a /\ match fstep c s a with Some (s1, _) => prompt c s1 l' | None => True end
  end.
(** without the user and without such delays, nothing happens any more *)
Definition at_rest (c : fcfg) (s : fst) : Prop := forall a, inner a = true -> prompt1 s a -> fstep c s a = None.
(** the user does nothing: one step *)
Definition onward (c : fcfg) (s2 s1 : fst) : Prop := exists a t, inner a = true /\ fstep c s1 a = Some (s2, t).

(** there are some links, this is one of them; the sizes of files are numbers the system has *)
Definition cfg_ok (c : fcfg) : Prop :=
  0 < num c /\ 0 <= idx c < num c /\
  (forall f d, F c f = Some d -> Z.of_nat (length d) < OFF_RANGE) /\ (forall f d, C c f = Some d -> Z.of_nat (length d) < OFF_RANGE).

(** a client with manners: it sends orders while the server is not sending, asks for ranges of numbers the system can add up, uploads something *)
Definition mannered1 (s : fst) (a : fact) : Prop :=
  match a, v_raw (f_v s), f_cs s with
  | STake _, None, IM m :: _ =>
      v_send (f_v s) = None /\ match m with O1 o n => o + n < OFF_RANGE | O11 _ n _ => 0 < n | _ => True end
  | _, _, _ => True
  end.
Fixpoint mannered (c : fcfg) (s : fst) (l : list fact) : Prop :=
  match l with
  | [] => True
  | a :: l' => mannered1 s a /\ match fstep c s a with Some (s1, _) => mannered c s1 l' | None => True end
  end.
