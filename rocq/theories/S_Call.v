(** Specification of one call of a send function. *)
From Coq Require Import List NArith Bool.
From Verif Require Import M_Bytes M_Config M_Packer S_Frame S_Packer M_Call.
Import ListNotations.
Open Scope N_scope.

(** the caller parts with the content of what it passes by reference *)
Definition parts_with (k : call) : bool := match c_arg k with AArray _ => false | AMany _ => true | _ => c_ref k end.
(** the bytes the peer is to get for this call: a frame, or just the bytes; an array that is too long for a message gives none, nor does one
    without bytes (C62) *)
Definition due (c : cfg) (k : call) : list byte :=
  let body := arg_body (c_arg k) in
  match c_arg k, c_how k with
  | AArray _, Packed => if fits c body then match body with [] => [] | _ => frame c body end else []
  | AArray _, _ => if lenN body <=? bufsz c then body else []
  | _, Packed => frame c body
  | _, _ => body
  end.
(** [new] is joined to [old] at the end, or in front if it has priority *)
Definition joined {A} (prior : bool) (old new : list A) : list A := if prior then new ++ old else old ++ new.
