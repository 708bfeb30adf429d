(** ext::flexible_unpacker, include/ext/unpacker.h:180-365. *)
From Coq Require Import List NArith Bool.
From Verif Require Import M_Bytes M_Config M_Rx M_Unpacker.
Import ListNotations.
Open Scope N_scope.

(** size of the fixed buffer, include/ext/unpacker.h:361. The model is generic in it ([fx]). *)
Definition flex_raw_size : N := 4000.

(** members raw_buff, big_msg, cur_msg_len, remain_len: include/ext/unpacker.h:361-364 *)
Record fst_ : Type := mk_fst { fraw : list byte; fbig : list byte; fcur : N; frem : N }.

(** content of freshly resized memory is unspecified (basic_buffer does not fill): any function *)
Definition garbage (g : nat -> byte) (n : N) : list byte := map g (seq 0 (N.to_nat n)).

Definition is_nil {A} (l : list A) : bool := match l with [] => true | _ => false end.

(** reset, include/ext/unpacker.h:229; the constructor (:187) calls it. *)
Definition flex_reset (c : cfg) (s : fst_) : fst_ := mk_fst (fraw s) [] (npos c) 0.

(** extend_buffer, include/ext/unpacker.h:346-358 (size_t subtractions are guarded by the callers:
    cur_msg_len > raw_buff.size() and remain_len >= HEAD_LEN; underflow would be [AssertFail]-free
    wrap-around in C++ and is made [OutOfBounds] here) *)
Definition extend_buffer (c : cfg) (g : nat -> byte) (s : fst_) : res fst_ :=
  let step := if stripped c then head_len c else 0 in
  if (fcur s <? step) || (frem s <? step) then Bad OutOfBounds else
  let cu := fcur s - step in
  let rem := frem s - step in
  bind (fetch (fraw s) step rem) (fun l =>
  bind (blit (garbage g cu) 0 l) (fun big =>
  Ok (mk_fst (fraw s) big cu rem))).

(** capacity of the buffer in use, include/ext/unpacker.h:235, 293, 305, 314 *)
Definition flex_cap (s : fst_) : N := if is_nil (fbig s) then lenN (fraw s) else lenN (fbig s).

(** parse_msg, include/ext/unpacker.h:231-282. The inner loop (:190-226) is the same text as the one of
    ext::unpacker (:63-99), hence [parse_loop]. *)
Definition flex_parse (c : cfg) (g : nat -> byte) (s : fst_) (bytes : N) : res (fst_ * list (list byte) * bool) :=
  let rem := frem s + bytes in
  if flex_cap s <? rem then Bad AssertFail else
  if negb (is_nil (fbig s)) then
    if negb (rem =? lenN (fbig s)) then Ok (mk_fst (fraw s) (fbig s) (fcur s) rem, [], false)
    else Ok (flex_reset c s, [fbig s], true)
  else
  bind (if (fcur s =? npos c) && (head_len c <=? rem) then read_head c (fraw s) 0 else Ok (fcur s)) (fun cu =>
  if (cu <=? bufsz c) && (lenN (fraw s) <? cu) then
    bind (extend_buffer c g (mk_fst (fraw s) (fbig s) cu rem)) (fun s' => Ok (s', [], true))
  else
  bind (parse_loop (N.to_nat (2 * rem + 4)) c (fraw s) 0 cu rem) (fun '(ps, off, cu', rem', ok0) =>
  let ok := ok0 && negb (off =? 0) in
  bind (build_msgs c (fraw s) ps) (fun msgs =>
  bind (move_left (fraw s) rem' ps) (fun raw' =>
  let s' := mk_fst raw' (fbig s) cu' rem' in
  if ok && negb (cu' =? npos c) && (lenN (fraw s) <? cu') then
    bind (extend_buffer c g s') (fun s'' => Ok (s'', msgs, ok))
  else Ok (s', msgs, ok))))).

(** completion_condition without error, include/ext/unpacker.h:287-307 *)
Definition flex_cc (c : cfg) (s : fst_) (bytes : N) : res (fst_ * N) :=
  let data_len := frem s + bytes in
  if flex_cap s <? data_len then Bad AssertFail else
  if (fcur s =? npos c) && (head_len c <=? data_len) then
    bind (read_head c (fraw s) 0) (fun n =>
    let s' := mk_fst (fraw s) (fbig s) n (frem s) in
    if (bufsz c <? n) || (n <? head_len c) || (lenN (fraw s) <? n) then Ok (s', 0)
    else Ok (s', if n <=? data_len then 0 else flex_cap s))
  else Ok (s, if fcur s <=? data_len then 0 else flex_cap s).

(** prepare_next_recv, include/ext/unpacker.h:309-338 *)
Definition flex_space (c : cfg) (s : fst_) : res (fst_ * N) :=
  if frem s <? flex_cap s then Ok (s, flex_cap s - frem s) else Bad AssertFail.

(** asio stores bytes into the buffer returned by prepare_next_recv *)
Definition flex_write (c : cfg) (s : fst_) (off : N) (d : list byte) : res fst_ :=
  if is_nil (fbig s) then
    bind (blit (fraw s) (frem s + off) d) (fun r => Ok (mk_fst r (fbig s) (fcur s) (frem s)))
  else
    bind (blit (fbig s) (frem s + off) d) (fun r => Ok (mk_fst (fraw s) r (fcur s) (frem s))).

Definition flexible_unpacker (c : cfg) (g : nat -> byte) : unpk fst_ :=
  mk_unpk fst_ (flex_space c) (flex_write c) (flex_cc c) (flex_parse c g) (flex_reset c).

(** constructor, include/ext/unpacker.h:187; content of raw_buff is arbitrary *)
Definition flex_init (c : cfg) (mem : list byte) : fst_ := mk_fst mem [] (npos c) 0.
