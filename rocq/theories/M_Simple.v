(** The receivers without a protocol of their own: ext::fixed_length_unpacker and ext::stream_unpacker
    (include/ext/unpacker.h:567-605 and 736-763). *)
From Coq Require Import List NArith Bool.
From Verif Require Import M_Bytes M_Config M_Rx M_Flex.
Import ListNotations.
Open Scope N_scope.

(** member raw_buff of fixed_length_unpacker, include/ext/unpacker.h:603; _fixed_length is the parameter [n] *)
Record xst : Type := mk_xst { xraw : list byte }.

(** the assertion of fixed_length(n), include/ext/unpacker.h:572 *)
Definition fixed_ok (c : cfg) (n : N) : bool := (0 <? n) && (n <=? bufsz c).

(** parse_msg, include/ext/unpacker.h:577-587; the swap leaves an empty buffer behind *)
Definition fx_parse (s : xst) (bytes : N) : res (xst * list (list byte) * bool) :=
  if negb (bytes =? lenN (xraw s)) then Ok (s, [], false)
  else Ok (mk_xst [], [xraw s], true).

(** completion_condition without error, include/ext/unpacker.h:591-592 *)
Definition fx_cc (n : N) (s : xst) (bytes : N) : res (xst * N) :=
  Ok (s, if bytes =? lenN (xraw s) then 0 else n).

(** prepare_next_recv, include/ext/unpacker.h:596-600: raw_buff.assign(_fixed_length) leaves unspecified content [g] *)
Definition fx_space (n : N) (g : nat -> byte) (s : xst) : res (xst * N) :=
  Ok (mk_xst (garbage g n), n).

Definition fx_write (s : xst) (off : N) (d : list byte) : res xst :=
  bind (blit (xraw s) off d) (fun r => Ok (mk_xst r)).

(** reset is empty, include/ext/unpacker.h:576 *)
Definition fixed_unpacker (n : N) (g : nat -> byte) : unpk xst :=
  mk_unpk xst (fx_space n g) fx_write (fx_cc n) fx_parse (fun s => s).

(** constructor: raw_buff is empty *)
Definition fx_init : xst := mk_xst [].

(** stream_unpacker: the state is raw_buff, include/ext/unpacker.h:762 *)
Definition sm_parse (c : cfg) (s : xst) (bytes : N) : res (xst * list (list byte) * bool) :=
  if bytes =? 0 then Ok (s, [], false)                                  (* 742-743 *)
  else if bufsz c <? bytes then Bad AssertFail                          (* 745 *)
  else bind (fetch (xraw s) 0 bytes) (fun m => Ok (s, [m], true)).      (* 747-748 *)

(** include/ext/unpacker.h:751 *)
Definition sm_cc (c : cfg) (s : xst) (bytes : N) : res (xst * N) := Ok (s, if 0 <? bytes then 0 else bufsz c).

(** include/ext/unpacker.h:755-759 *)
Definition sm_space (s : xst) : res (xst * N) := Ok (s, lenN (xraw s)).

Definition stream_unpacker (c : cfg) : unpk xst :=
  mk_unpk xst sm_space fx_write (sm_cc c) (sm_parse c) (fun s => s).

Definition sm_init (mem : list byte) : xst := mk_xst mem.
