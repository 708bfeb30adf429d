(** Specification of the length-prefixed protocol: what a stream of frames is and which
    messages a receiver must have seen after [k] bytes. Nothing here mentions buffers,
    reads or unpacker state. *)
From Coq Require Import List NArith Bool.
From Verif Require Import M_Bytes M_Config.
Import ListNotations.
Open Scope N_scope.

(** a frame: big-endian total length, then the body *)
Definition frame (c : cfg) (body : list byte) : list byte :=
  be_encode (N.to_nat (head_len c)) (head_len c + lenN body) ++ body.

(** the byte stream made of some bodies *)
Definition wire (c : cfg) (bodies : list (list byte)) : list byte := concat (map (frame c) bodies).

(** a body that may be sent: its frame fits the buffer and its length fits the header *)
Definition fits (c : cfg) (body : list byte) : bool :=
  (head_len c + lenN body <=? bufsz c) && (head_len c + lenN body <? head_range c).

(** the frames that lie completely within the first [k] bytes of the stream *)
Fixpoint complete (c : cfg) (bodies : list (list byte)) (k : N) : list (list byte) :=
  match bodies with
  | [] => []
  | b :: bs => if lenN (frame c b) <=? k then b :: complete c bs (k - lenN (frame c b)) else []
  end.

Definition nonempty {A} (l : list A) : bool := match l with [] => false | _ => true end.

(** heartbeats (empty bodies) are not shown to the application; with stripping the application
    sees the body, otherwise the whole frame *)
Definition shown (c : cfg) (bodies : list (list byte)) : list (list byte) :=
  map (fun b => if stripped c then b else frame c b) (filter nonempty bodies).

(** the messages the application must have received after [k] bytes *)
Definition expected (c : cfg) (bodies : list (list byte)) (k : N) : list (list byte) :=
  shown c (complete c bodies k).
