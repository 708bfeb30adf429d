(** Bytes, byte lists with N-indexed sizes, memory blocks and outcomes.

    C++ [char] buffers are lists of [byte]; [size_t] values are [N].
    Everything that is undefined behaviour or an [assert] failure in C++ is a
    distinct outcome ([Bad]) here, never silently given a meaning. *)
From Coq Require Import List NArith Bool Lia.
From Coq Require Export Init.Byte Strings.Byte.
Import ListNotations.
Open Scope N_scope.

(** size of a byte list as a C++ [size_t] *)
Definition lenN {A} (l : list A) : N := N.of_nat (length l).
(** the first [n] / all but the first [n] elements ([std::advance], [boost::next]) *)
Definition takeN {A} (n : N) (l : list A) : list A := firstn (N.to_nat n) l.
Definition dropN {A} (n : N) (l : list A) : list A := skipn (N.to_nat n) l.

(** Outcomes that a correct program must never produce. *)
Inductive bad : Type :=
| AssertFail        (* an assert(...) of the C++ source is false *)
| OutOfBounds       (* access outside an array or an allocated block *)
| OutOfFuel         (* the model's fuel ran out: the modelled loop did not terminate in time *)
| UseAfterFree      (* a freed block is read *)
| Thrown.           (* a C++ exception leaves the function *)

Inductive res (A : Type) : Type :=
| Ok (a : A)
| Bad (b : bad).
Arguments Ok {A} a.
Arguments Bad {A} b.

Definition bind {A B} (r : res A) (f : A -> res B) : res B :=
  match r with Ok a => f a | Bad b => Bad b end.

(** [memcpy]/[memmove] of [src] to offset [off] of block [dst]; writing past the block is [OutOfBounds]. *)
Definition blit (dst : list byte) (off : N) (src : list byte) : res (list byte) :=
  if off + lenN src <=? lenN dst
  then Ok (takeN off dst ++ src ++ dropN (off + lenN src) dst)
  else Bad OutOfBounds.

(** reading [n] bytes at offset [off]; reading past the block is [OutOfBounds]. *)
Definition fetch (blk : list byte) (off n : N) : res (list byte) :=
  if off + n <=? lenN blk then Ok (takeN n (dropN off blk)) else Bad OutOfBounds.

(** one byte from the low 8 bits of a number *)
Definition byte_of_N (n : N) : byte :=
  match Byte.of_N (n mod 256) with Some b => b | None => x00 end.

(** htons / htonl: [k]-byte network (big-endian) image of [n]; higher bits are cut off by the
    conversion to ST_ASIO_HEAD_TYPE (include/ext/ext.h:36-53). *)
Fixpoint be_encode (k : nat) (n : N) : list byte :=
  match k with
  | O => []
  | S k' => be_encode k' (n / 256) ++ [byte_of_N n]
  end.

(** ntohs / ntohl applied to the bytes copied by memcpy (include/ext/ext.h:36-53). *)
Definition be_decode (l : list byte) : N :=
  fold_left (fun acc b => acc * 256 + Byte.to_N b) l 0.

Definition byte_eqb (a b : byte) : bool := Byte.eqb a b.

(** memcmp(a, b, n) == 0 for equally long byte lists *)
Fixpoint bytes_eqb (a b : list byte) : bool :=
  match a, b with
  | [], [] => true
  | x :: a', y :: b' => byte_eqb x y && bytes_eqb a' b'
  | _, _ => false
  end.
