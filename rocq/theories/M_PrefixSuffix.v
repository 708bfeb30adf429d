(** ext::prefix_suffix_unpacker, include/ext/unpacker.h:608-732. *)
From Coq Require Import List NArith Bool.
From Verif Require Import M_Bytes M_Config M_Rx.
Import ListNotations.
Open Scope N_scope.

(** members _prefix, _suffix, include/ext/unpacker.h:729 *)
Record affix : Type := mk_affix { prefix : list byte; suffix : list byte }.

(** the assertion of prefix_suffix(), include/ext/unpacker.h:613 *)
Definition affix_ok (c : cfg) (a : affix) : bool :=
  (0 <? lenN (suffix a)) && (lenN (prefix a) + lenN (suffix a) <? bufsz c).

Definition min_len (a : affix) : N := lenN (prefix a) + lenN (suffix a).

(** members raw_buff, cur_msg_len, remain_len, include/ext/unpacker.h:728-731 *)
Record pst : Type := mk_pst { praw : list byte; pcur : N; prem : N }.

(** memmem, include/ext/unpacker.h:651-662: [off] is mem - raw_buff, [n] the iterations left; every
    memcmp is bounds-checked against the block *)
Fixpoint memmem_loop (n : nat) (blk : list byte) (off : N) (sub : list byte) : res (option N) :=
  match n with
  | O => Ok None
  | S n' => bind (fetch blk off (lenN sub)) (fun x =>
              if bytes_eqb x sub then Ok (Some off) else memmem_loop n' blk (off + 1) sub)
  end.
Definition memmem (blk : list byte) (off len : N) (sub : list byte) : res (option N) :=
  if lenN sub <=? len then memmem_loop (N.to_nat (len - lenN sub + 1)) blk off sub else Ok None.

(** the end of peek_msg, include/ext/unpacker.h:634-647 *)
Definition peek_tail (c : cfg) (a : affix) (blk : list byte) (off data_len cu : N) : res (N * N) :=
  if min_len a <? data_len then
    bind (memmem blk (off + lenN (prefix a)) (data_len - lenN (prefix a)) (suffix a)) (fun r =>
    match r with
    | Some e => Ok (e - off + lenN (suffix a), 0)
    | None => if bufsz c <=? data_len then Ok (cu, 0) else Ok (cu, bufsz c)
    end)
  else Ok (cu, bufsz c).

(** peek_msg(data_len, buff) with buff = raw_buff + off, include/ext/unpacker.h:617-648.
    Result: new cur_msg_len and the return value. *)
Definition peek_msg (c : cfg) (a : affix) (blk : list byte) (off data_len cu : N) : res (N * N) :=
  if cu =? npos c then
    if lenN (prefix a) <=? data_len then
      bind (fetch blk off (lenN (prefix a))) (fun x =>
      if negb (bytes_eqb (prefix a) x) then Ok (cu, 0)
      else peek_tail c a blk off data_len 0)
    else peek_tail c a blk off data_len cu
  else if negb (cu =? 0) then Ok (cu, 0)
  else peek_tail c a blk off data_len cu.

(** reset, include/ext/unpacker.h:665 *)
Definition ps_reset (c : cfg) (s : pst) : pst := mk_pst (praw s) (npos c) 0.

(** the loop of parse_msg, include/ext/unpacker.h:675-688. Result: messages, pnext - raw_buff, cur_msg_len, remain_len *)
Fixpoint ps_loop (fuel : nat) (c : cfg) (a : affix) (blk : list byte) (off cu rem : N)
  : res (list (list byte) * N * N * N) :=
  match fuel with
  | O => Bad OutOfFuel
  | S f =>
    bind (peek_msg c a blk off rem cu) (fun '(cu1, ret) =>
    if (ret =? 0) && negb (cu1 =? npos c) && negb (cu1 =? 0) then
      if cu1 <? min_len a then Bad AssertFail else
      if rem <? cu1 then Bad OutOfBounds else
      bind (if min_len a <? cu1 then
              bind (if stripped c then fetch blk (off + lenN (prefix a)) (cu1 - min_len a) else fetch blk off cu1) (fun m => Ok [m])
            else Ok []) (fun ms =>
      bind (ps_loop f c a blk (off + cu1) (npos c) (rem - cu1)) (fun '(ms', off', cu', rem') =>
      Ok (ms ++ ms', off', cu', rem')))
    else Ok ([], off, cu1, rem))
  end.

(** parse_msg, include/ext/unpacker.h:667-696 *)
Definition ps_parse (c : cfg) (a : affix) (s : pst) (bytes : N) : res (pst * list (list byte) * bool) :=
  let rem := prem s + bytes in
  if bufsz c <? rem then Bad AssertFail else
  bind (ps_loop (N.to_nat (rem + 1)) c a (praw s) 0 (pcur s) rem) (fun '(msgs, off, cu, rem') =>
  if off =? 0 then Ok (mk_pst (praw s) cu rem', msgs, false)
  else if 0 <? rem' then
    bind (fetch (praw s) off rem') (fun l => bind (blit (praw s) 0 l) (fun r => Ok (mk_pst r cu rem', msgs, true)))
  else Ok (mk_pst (praw s) cu rem', msgs, true)).

(** completion_condition without error, include/ext/unpacker.h:701-710 *)
Definition ps_cc (c : cfg) (a : affix) (s : pst) (bytes : N) : res (pst * N) :=
  let data_len := prem s + bytes in
  if bufsz c <? data_len then Bad AssertFail else
  bind (peek_msg c a (praw s) 0 data_len (pcur s)) (fun '(cu, ret) => Ok (mk_pst (praw s) cu (prem s), ret)).

(** prepare_next_recv, include/ext/unpacker.h:714-720 *)
Definition ps_space (c : cfg) (s : pst) : res (pst * N) :=
  if prem s <? bufsz c then Ok (s, lenN (praw s) - prem s) else Bad AssertFail.

Definition ps_write (c : cfg) (s : pst) (off : N) (d : list byte) : res pst :=
  bind (blit (praw s) (prem s + off) d) (fun r => Ok (mk_pst r (pcur s) (prem s))).

Definition ps_unpacker (c : cfg) (a : affix) : unpk pst :=
  mk_unpk pst (ps_space c) (ps_write c) (ps_cc c a) (ps_parse c a) (ps_reset c).

(** constructor, include/ext/unpacker.h:611 *)
Definition ps_init (c : cfg) (mem : list byte) : pst := mk_pst mem (npos c) 0.
