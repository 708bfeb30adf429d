(** Specification of basic_buffer: a byte string with a capacity. *)
From Coq Require Import List NArith Bool.
From Verif Require Import M_Bytes M_Buffer.
Import ListNotations.
Open Scope N_scope.

(** the visible bytes: size() bytes at data() *)
Definition content (b : bbuf) : list byte := match bmem b with None => [] | Some m => takeN (bsize b) m end.

(** a well-formed object: it owns [cap] bytes, or nothing *)
Definition bb_ok (b : bbuf) : Prop :=
  match bmem b with
  | None => bsize b = 0 /\ bcap b = 0
  | Some m => lenN m = bcap b /\ bsize b <= bcap b /\ bcap b <= UMAX /\ 0 < bcap b
  end.

(** the string without one 0 character at its end *)
Definition drop_nul (s : list byte) : list byte :=
  match rev s with b :: r => if byte_eqb b x00 then rev r else s | [] => [] end.

(** bytes designated by a pointer and a length *)
Definition at_ptr (p : option (list byte)) (n : N) : list byte := match p with None => [] | Some m => takeN n m end.

(** the string an operation must leave, given those of x and y before (std::string semantics);
    resize to a greater length leaves the new bytes open *)
Definition str_result (o : bop) (x y : list byte) (r : list byte) : Prop :=
  match o with
  | OAppend p n => r = x ++ at_ptr p n
  | OAppendStr t => r = x ++ t
  | OFill n c => r = x ++ repeat c (N.to_nat n)
  | OAppend2 p n => r = drop_nul x ++ at_ptr p n
  | OErase pos n => r = takeN pos x ++ dropN (pos + n) x
  | OResize n => lenN r = n /\ takeN (lenN x) r = takeN n x
  | OAssign p n => r = at_ptr p n
  | OReserve _ => r = x
  | OClean => r = []
  | OAppendOther => r = x ++ y
  | OAssignOther | OCopy => r = y
  | OCopyFrom pos => r = dropN pos y
  | OSwap => r = y
  end.
(** the second object *)
Definition str_other (o : bop) (x y : list byte) : list byte := match o with OSwap => x | _ => y end.

(** what remains in x if an exception is thrown *)
Definition str_thrown (o : bop) (x : list byte) : list byte :=
  match o with
  | OAppend2 _ _ => drop_nul x
  | OAssign _ _ | OAssignOther | OCopy | OCopyFrom _ => []
  | _ => x
  end.

(** the size that an operation asks for, and whether it is legal *)
Definition wanted (o : bop) (x y : list byte) : N :=
  match o with
  | OAppend None n | OAssign None n => 0
  | OAppend (Some _) n => if n =? 0 then 0 else lenN x + n
  | OAppendStr t => lenN x + lenN t
  | OFill n _ => lenN x + n
  | OAppend2 None n => 0
  | OAppend2 (Some _) n => if n =? 0 then 0 else lenN (drop_nul x) + n
  | OResize n | OReserve n | OAssign _ n => n
  | OAppendOther => lenN x + lenN y
  | _ => 0
  end.
Definition allowed (o : bop) (x y : list byte) : bool :=
  (wanted o x y <=? UMAX) && match o with OErase pos _ => pos <=? lenN x | _ => true end.

(** pointers given by the caller are readable, sizes are size_t values *)
Definition op_ok (W : N) (o : bop) : Prop :=
  match o with
  | OAppend (Some m) n | OAppend2 (Some m) n | OAssign (Some m) n => n <= lenN m /\ n < W
  | OAppendStr t => lenN t < W /\ ~ In x00 t
  | OFill n _ | OResize n | OReserve n => n < W
  | OErase pos n => pos < W /\ n < W
  | _ => True
  end.

(** capacity must suffice *)
Definition cap_enough (o : bop) (b : bbuf) : Prop := match o with OReserve n => n <= bcap b | _ => True end.
