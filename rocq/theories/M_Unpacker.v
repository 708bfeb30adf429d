(** ext::unpacker, include/ext/unpacker.h:53-174. *)
From Coq Require Import List NArith Bool.
From Verif Require Import M_Bytes M_Config M_Rx.
Import ListNotations.
Open Scope N_scope.

(** members raw_buff, cur_msg_len, remain_len: include/ext/unpacker.h:171-173 *)
Record ust : Type := mk_ust { raw : list byte; cur : N; remain : N }.

(** reset, include/ext/unpacker.h:102; the constructor (:60) calls it. *)
Definition unp_reset (c : cfg) (s : ust) : ust := mk_ust (raw s) (npos c) 0.

(** memcpy(&head, p, HEAD_LEN); HEAD_N2H(head): include/ext/unpacker.h:84-86, 144-146 *)
Definition read_head (c : cfg) (blk : list byte) (off : N) : res N :=
  bind (fetch blk off (head_len c)) (fun h => Ok (be_decode h)).

(** The inner loop parse_msg(pos_list&), include/ext/unpacker.h:63-93. [off] is pnext - raw_buff.begin(),
    positions are pairs (offset, length). Result: positions, final pnext, cur_msg_len, remain_len, unpack_ok. *)
Fixpoint parse_loop (fuel : nat) (c : cfg) (blk : list byte) (off cu rem : N)
  : res (list (N * N) * N * N * N * bool) :=
  match fuel with
  | O => Bad OutOfFuel
  | S f =>
    if negb (cu =? npos c) then
      if (bufsz c <? cu) || (cu <? head_len c) then Ok ([], off, cu, rem, false)
      else if cu <=? rem then
        bind (parse_loop f c blk (off + cu) (npos c) (rem - cu))
             (fun '(ps, o, cu', rem', ok) => Ok ((off, cu) :: ps, o, cu', rem', ok))
      else Ok ([], off, cu, rem, true)
    else if head_len c <=? rem then
      bind (read_head c blk off) (fun n =>
        if huge c && (n =? npos c) then Ok ([], off, n, rem, false)
        else parse_loop f c blk off n rem)
    else Ok ([], off, cu, rem, true)
  end.

(** lines 112-119: build messages from the positions, heartbeats ignored, optionally stripped *)
Definition build_msg (c : cfg) (blk : list byte) (p : N * N) : res (list (list byte)) :=
  let '(off, n) := p in
  if head_len c <? n then
    bind (if stripped c then fetch blk (off + head_len c) (n - head_len c) else fetch blk off n)
         (fun m => Ok [m])
  else Ok [].

Fixpoint build_msgs (c : cfg) (blk : list byte) (ps : list (N * N)) : res (list (list byte)) :=
  match ps with
  | [] => Ok []
  | p :: ps' => bind (build_msg c blk p) (fun m => bind (build_msgs c blk ps') (fun ms => Ok (m ++ ms)))
  end.

(** lines 121-125: left behind unparsed data are moved to the front *)
Definition move_left (blk : list byte) (rem : N) (ps : list (N * N)) : res (list byte) :=
  if (0 <? rem) && negb (match ps with [] => true | _ => false end) then
    let p := last ps (0, 0) in
    bind (fetch blk (fst p + snd p) rem) (fun l => blit blk 0 l)
  else Ok blk.

(** parse_msg(bytes_transferred, msg_can), include/ext/unpacker.h:104-129 *)
Definition unp_parse (c : cfg) (s : ust) (bytes : N) : res (ust * list (list byte) * bool) :=
  let rem := remain s + bytes in
  if bufsz c <? rem then Bad AssertFail else
  bind (parse_loop (N.to_nat (2 * rem + 4)) c (raw s) 0 (cur s) rem) (fun '(ps, off, cu, rem', ok0) =>
  let ok := ok0 && negb (off =? 0) in
  bind (build_msgs c (raw s) ps) (fun msgs =>
  bind (move_left (raw s) rem' ps) (fun raw' =>
  Ok (mk_ust raw' cu rem', msgs, ok)))).

(** completion_condition without error, include/ext/unpacker.h:134-153 *)
Definition unp_cc (c : cfg) (s : ust) (bytes : N) : res (ust * N) :=
  let data_len := remain s + bytes in
  if bufsz c <? data_len then Bad AssertFail else
  if (cur s =? npos c) && (head_len c <=? data_len) then
    bind (read_head c (raw s) 0) (fun n =>
    let s' := mk_ust (raw s) n (remain s) in
    if (bufsz c <? n) || (n <? head_len c) then Ok (s', 0)
    else Ok (s', if n <=? data_len then 0 else bufsz c))
  else Ok (s, if cur s <=? data_len then 0 else bufsz c).

(** prepare_next_recv, include/ext/unpacker.h:155-163: the free part of raw_buff *)
Definition unp_space (c : cfg) (s : ust) : res (ust * N) :=
  if remain s <? bufsz c then Ok (s, lenN (raw s) - remain s) else Bad AssertFail.

(** asio stores bytes at [off] of the buffer returned by prepare_next_recv *)
Definition unp_write (c : cfg) (s : ust) (off : N) (d : list byte) : res ust :=
  bind (blit (raw s) (remain s + off) d) (fun r => Ok (mk_ust r (cur s) (remain s))).

Definition unpacker (c : cfg) : unpk ust :=
  mk_unpk ust (unp_space c) (unp_write c) (unp_cc c) (unp_parse c) (unp_reset c).

(** The constructor (include/ext/unpacker.h:60); the content of raw_buff is arbitrary. *)
Definition unp_init (c : cfg) (mem : list byte) : ust := mk_ust mem (npos c) 0.
