(** How much work it is to fill a basic_buffer: a reallocation moves the whole block. *)
From Coq Require Import List NArith Bool.
From Verif Require Import M_Bytes M_Buffer.
Import ListNotations.
Open Scope N_scope.

(** the calls that add bytes at the end *)
Definition adds (o : bop) : bool := match o with OAppend _ _ | OAppendStr _ | OFill _ _ | OAppendOther => true | _ => false end.

(** the calls, one after the other, none of which throws; the second result is the number of bytes in the blocks that were
    replaced by others (what realloc has to move) *)
Fixpoint filled (e : benv) (x y : bbuf) (os : list bop) : option (bbuf * N) :=
  match os with
  | [] => Some (x, 0)
  | o :: os' =>
      match bb_step e x y o with
      | PDone x1 _ =>
          match filled e x1 y os' with
          | Some (x2, n) => Some (x2, (if bcap x1 =? bcap x then 0 else bcap x) + n)
          | None => None
          end
      | _ => None
      end
  end.
