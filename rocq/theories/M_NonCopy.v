(** ext::non_copy_unpacker, include/ext/unpacker.h:467-560. *)
From Coq Require Import List NArith Bool.
From Verif Require Import M_Bytes M_Config M_Rx M_Flex.
Import ListNotations.
Open Scope N_scope.

(** members head, raw_buff, step: include/ext/unpacker.h:551-559; [nhead] is the memory of [head] *)
Record nst : Type := mk_nst { nhead : list byte; nbuf : list byte; nstep : N }.

(** reset, include/ext/unpacker.h:480 *)
Definition nc_reset (s : nst) : nst := mk_nst (nhead s) [] 0.

(** parse_msg, include/ext/unpacker.h:481-518. Line 493 subtracts in size_t (wraps below the header size). *)
Definition nc_parse (c : cfg) (g : nat -> byte) (s : nst) (bytes : N) : res (nst * list (list byte) * bool) :=
  if nstep s =? 0 then
    if negb (is_nil (nbuf s)) then Bad AssertFail else
    if negb (bytes =? head_len c) then Ok (s, [], false) else
    let n := (be_decode (nhead s) + size_range c - head_len c) mod size_range c in
    if bufsz c - head_len c <? n then Ok (s, [], false)
    else if 0 <? n then Ok (mk_nst (nhead s) (garbage g n) 1, [], true)
    else Ok (s, [], true)
  else if nstep s =? 1 then
    if is_nil (nbuf s) then Bad AssertFail else
    if negb (bytes =? lenN (nbuf s)) then Ok (s, [], false)
    else Ok (mk_nst (nhead s) [] 0, [nbuf s], true)
  else Ok (s, [], true).

(** completion_condition without error, include/ext/unpacker.h:522-541 *)
Definition nc_cc (c : cfg) (s : nst) (bytes : N) : res (nst * N) :=
  if nstep s =? 0 then if is_nil (nbuf s) then Ok (s, head_len c) else Bad AssertFail
  else if nstep s =? 1 then if is_nil (nbuf s) then Bad AssertFail else Ok (s, lenN (nbuf s))
  else Bad AssertFail.

(** prepare_next_recv, include/ext/unpacker.h:545-549 *)
Definition nc_space (c : cfg) (s : nst) : res (nst * N) :=
  Ok (s, if is_nil (nbuf s) then head_len c else lenN (nbuf s)).

Definition nc_write (c : cfg) (s : nst) (off : N) (d : list byte) : res nst :=
  if is_nil (nbuf s) then bind (blit (nhead s) off d) (fun r => Ok (mk_nst r (nbuf s) (nstep s)))
  else bind (blit (nbuf s) off d) (fun r => Ok (mk_nst (nhead s) r (nstep s))).

Definition non_copy_unpacker (c : cfg) (g : nat -> byte) : unpk nst :=
  mk_unpk nst (nc_space c) (nc_write c) (nc_cc c) (nc_parse c g) nc_reset.

(** constructor, include/ext/unpacker.h:473; [mem]: arbitrary content of the head member *)
Definition nc_init (mem : list byte) : nst := mk_nst mem [] 0.
