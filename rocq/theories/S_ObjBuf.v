(** Specification: buffers on the heap behave as values, and every object is freed when the last buffer lets it go. *)
From Coq Require Import List NArith Arith Bool.
From Verif Require Import M_Bytes M_ObjBuf.
Import ListNotations.

(** the values of the buffers: None - no object *)
Definition vals : Type := list (option (list byte)).
Definition place {A} (i : nat) (x : A) (v : list A) : list A := firstn i v ++ x :: skipn (S i) v.
Definition vexec (v : vals) (a : op) : option vals :=
  let at_ i (f : option (list byte) -> option vals) := match nth_error v i with Some x => f x | None => None end in
  match a with
  | ONew b => Some (v ++ [Some b])
  | ODefault => Some (v ++ [None])
  | OCopy i => at_ i (fun x => Some (v ++ [x]))
  | OSwap i j => at_ i (fun x => at_ j (fun y => Some (place j x (place i y v))))
  | OClear i => at_ i (fun _ => Some (place i None v))
  | OReset i b => at_ i (fun _ => Some (place i (Some b) v))
  | OAssign i j => at_ i (fun _ => at_ j (fun y => Some (place i y v)))
  | OTake i j => at_ i (fun _ => at_ j (fun y => Some (place j None (place i (if i =? j then None else y) v))))
  | OWrite i b => at_ i (fun x => match x with Some _ => Some (place i (Some b) v) | None => None end)
  end.
Fixpoint vrun (v : vals) (l : list op) : option vals :=
  match l with [] => Some v | a :: l' => match vexec v a with Some v' => vrun v' l' | None => None end end.
(** what the buffers hold *)
Definition views (s : ob) : vals := map (view s) (seq 0 (length (o_slots s))).

Definition frees (t : list ev) : list nat := flat_map (fun e => match e with EFree o => [o] | _ => [] end) t.
Definition news (t : list ev) : list nat := flat_map (fun e => match e with ENew o => [o] | _ => [] end) t.
(** some buffer holds object o *)
Definition held (s : ob) (o : nat) : Prop := In (Some o) (o_slots s).
Definition writes (a : op) : bool := match a with OWrite _ _ => true | _ => false end.

(** a packer with buffers agrees with the plain one: it gives the same bytes, takes exactly the messages [is] away from the caller, or, when it
    refuses, leaves everything as it was *)
Definition agree (s : ob) (is : list nat) (plain : res (option (list (list byte)))) (packed : res (out (bool * ob))) : Prop :=
  match plain, packed with
  | Bad b, Bad b' => b = b'
  | Ok None, Ok (Done (false, s') e) => s' = s /\ e = []
  | Ok (Some items), Ok (Done (true, s') e) =>
    items_of s s' = items /\ (forall i, In i is -> view s' i = None) /\ forall j, j < length (o_slots s) -> ~ In j is -> view s' j = view s j
  | _, _ => False
  end.
(** the same for packing into one buffer i *)
Definition agree_one (s : ob) (i : nat) (plain : res (bool * list byte)) (packed : res (out (bool * ob))) : Prop :=
  match plain, packed with
  | Bad b, Bad b' => b = b'
  | Ok (false, _), Ok (Done (false, s') e) => s' = s /\ e = []
  | Ok (true, m), Ok (Done (true, s') e) => view s' i = Some m /\ length (o_slots s') = length (o_slots s) /\ forall j, j <> i -> view s' j = view s j
  | _, _ => False
  end.
(** the header tells how many bytes the message has, header included *)
Definition announces (c : M_Config.cfg) (items : list (list byte)) : Prop :=
  match items with [] => False | h :: _ => be_decode h = lenN (concat items) end.
