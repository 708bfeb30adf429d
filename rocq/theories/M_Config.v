(** Compile-time configuration shared by the ext packers/unpackers. *)
From Coq Require Import NArith Bool.
From Verif Require Import M_Bytes.
Open Scope N_scope.

(** include/ext/ext.h:23-55 (ST_ASIO_MSG_BUFFER_SIZE, ST_ASIO_HUGE_MSG),
    include/base.h:262-294 (i_unpacker::stripped), [npos] is (size_t) -1. *)
Record cfg : Type := mk_cfg {
  bufsz : N;          (* ST_ASIO_MSG_BUFFER_SIZE *)
  huge : bool;        (* ST_ASIO_HUGE_MSG defined *)
  stripped : bool;    (* i_unpacker::stripped() *)
  npos : N            (* (size_t) -1 *)
}.

(** ST_ASIO_HEAD_LEN = sizeof(ST_ASIO_HEAD_TYPE), include/ext/ext.h:39-55 *)
Definition head_len (c : cfg) : N := if huge c then 4 else 2.
(** number of values of ST_ASIO_HEAD_TYPE *)
Definition head_range (c : cfg) : N := 256 ^ head_len c.
(** number of values of size_t *)
Definition size_range (c : cfg) : N := npos c + 1.

(** What the preprocessor checks guarantee: include/ext/ext.h:25 (at most 100 MB),
    :44 and :51 (at least the header); size_t is 32 or 64 bits wide. *)
Definition cfg_ok (c : cfg) : bool :=
  (head_len c <=? bufsz c) && (bufsz c <=? 104857600) &&
  ((npos c =? 2^32 - 1) || (npos c =? 2^64 - 1)).

(** the default configuration: include/ext/ext.h:24 and include/config.h:1069 *)
Definition default_cfg : cfg := mk_cfg 4000 false true (2^64 - 1).
