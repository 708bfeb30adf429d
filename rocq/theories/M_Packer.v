(** The packers of include/ext/packer.h.

    A message is its bytes; swapping a message into a container leaves the caller's message empty and is
    modelled by returning the items. Memory allocation is assumed to succeed. [ndebug]: macro NDEBUG is
    defined, i.e. assertions are compiled out; otherwise a false assertion is [Bad AssertFail]. *)
From Coq Require Import List NArith Bool.
From Verif Require Import M_Bytes M_Config M_PrefixSuffix.
Import ListNotations.
Open Scope N_scope.

(** one entry of the arrays pstr[] and len[]: NULL or the memory pstr[i] points to, and len[i] *)
Record buf : Type := mk_buf { bptr : option (list byte); blen : N }.

(** the loop of msg_size_check, include/ext/packer.h:31-41, sums in size_t *)
Fixpoint size_loop (c : cfg) (total : N) (bufs : list buf) : N :=
  match bufs with
  | [] => total
  | b :: bs =>
    match bptr b with
    | None => size_loop c total bs
    | Some _ =>
      let total' := (total + blen b) mod size_range c in
      if (total' <? total) || (bufsz c <? total') then npos c else size_loop c total' bs
    end
  end.

(** msg_size_check, include/ext/packer.h:24-44; [None]: pstr or len is NULL *)
Definition msg_size_check (c : cfg) (pre_len : N) (bufs : option (list buf)) : N :=
  match bufs with None => npos c | Some bs => size_loop c pre_len bs end.

(** the appending loops, include/ext/packer.h:97-99 and 279-281 *)
Fixpoint append_all (msg : list byte) (bufs : list buf) : res (list byte) :=
  match bufs with
  | [] => Ok msg
  | b :: bs =>
    match bptr b with
    | None => append_all msg bs
    | Some mem => bind (fetch mem 0 (blen b)) (fun x => append_all (msg ++ x) bs)
    end
  end.

(** the image of a header, ST_ASIO_HEAD_H2N((ST_ASIO_HEAD_TYPE) n) *)
Definition head_image (c : cfg) (n : N) : list byte := be_encode (N.to_nat (head_len c)) n.

(** pack_header, include/ext/packer.h:46-55 *)
Definition pack_header (c : cfg) (ndebug : bool) (len : N) : res (list byte) :=
  let total := head_len c + len in
  if negb ndebug && negb ((len <? bufsz c) && (total <=? bufsz c) && (total mod head_range c =? total)) then Bad AssertFail
  else Ok (head_image c total).

(** packer::pack_msg(msg, pstr, len, num, native), include/ext/packer.h:72-103.
    Result: the return value and the content of msg. *)
Definition pack_array (c : cfg) (bufs : option (list buf)) (native : bool) : res (bool * list byte) :=
  let pre_len := if native then 0 else head_len c in
  let total := msg_size_check c pre_len bufs in
  if total =? npos c then Ok (false, [])
  else match bufs with
  | None => Ok (false, [])
  | Some bs =>
    if pre_len <? total then
      if native then bind (append_all [] bs) (fun m => Ok (true, m))
      else if negb (total mod head_range c =? total) then Ok (false, [])
      else bind (append_all (head_image c total) bs) (fun m => Ok (true, m))
    else Ok (true, [])
  end.

(** get_max_msg_size, include/ext/packer.h:67 *)
Definition max_body (c : cfg) : N := bufsz c - head_len c.

(** get_size_in_byte, include/base.h:646-656, in size_t *)
Definition size_in_byte (c : cfg) (items : list (list byte)) : N :=
  fold_left (fun acc i => (acc + lenN i) mod size_range c) items 0.

(** packer::pack_msg(msg, msg_can), include/ext/packer.h:104-115. Result: None for false, else the items put
    behind those of msg_can. *)
Definition pack_one (c : cfg) (ndebug : bool) (msg : list byte) : res (option (list (list byte))) :=
  if max_body c <? lenN msg then Ok None
  else bind (pack_header c ndebug (lenN msg)) (fun h => Ok (Some [h; msg])).

(** packer::pack_msg(msg1, msg2, msg_can), include/ext/packer.h:116-129 *)
Definition pack_two (c : cfg) (ndebug : bool) (m1 m2 : list byte) : res (option (list (list byte))) :=
  let len := (lenN m1 + lenN m2) mod size_range c in
  if max_body c <? len then Ok None
  else bind (pack_header c ndebug len) (fun h => Ok (Some [h; m1; m2])).

(** packer::pack_msg(in, out), include/ext/packer.h:129-140 *)
Definition pack_many (c : cfg) (ndebug : bool) (items : list (list byte)) : res (option (list (list byte))) :=
  let len := size_in_byte c items in
  if max_body c <? len then Ok None
  else bind (pack_header c ndebug len) (fun h => Ok (Some (h :: items))).

(** pack_heartbeat, include/ext/packer.h:69 and 141 *)
Definition pack_heartbeat (c : cfg) (ndebug : bool) : res (list byte) := pack_header c ndebug 0.

(** raw_data and raw_data_len, include/ext/packer.h:144-146: offset and length *)
Definition packed_raw_data (c : cfg) (msg : list byte) : res (list byte) :=
  fetch msg (head_len c) ((lenN msg + size_range c - head_len c) mod size_range c).

(** the same of a received message, include/ext/unpacker.h:166-168, 341-343 *)
Definition unpacked_raw_data (c : cfg) (msg : list byte) : res (list byte) :=
  if stripped c then fetch msg 0 (lenN msg)
  else fetch msg (head_len c) ((lenN msg + size_range c - head_len c) mod size_range c).

(** prefix_suffix_packer, include/ext/packer.h:257-341 *)
Definition ps_pack_array (c : cfg) (a : affix) (bufs : option (list buf)) (native : bool) : res (bool * list byte) :=
  let pre_len := if native then 0 else lenN (prefix a) + lenN (suffix a) in
  let total := msg_size_check c pre_len bufs in
  if total =? npos c then Ok (false, [])
  else match bufs with
  | None => Ok (false, [])
  | Some bs =>
    if pre_len <? total then
      bind (append_all (if native then [] else prefix a) bs) (fun m =>
      Ok (true, m ++ (if native then [] else suffix a)))
    else Ok (true, [])
  end.

Definition opt_item (l : list byte) : list (list byte) := match l with [] => [] | _ => [l] end.

(** include/ext/packer.h:288-301, 302-316, 317-330 *)
Definition ps_pack_one (c : cfg) (a : affix) (msg : list byte) : res (option (list (list byte))) :=
  if bufsz c <? (lenN (prefix a) + lenN msg + lenN (suffix a)) mod size_range c then Ok None
  else Ok (Some (opt_item (prefix a) ++ [msg] ++ opt_item (suffix a))).
Definition ps_pack_two (c : cfg) (a : affix) (m1 m2 : list byte) : res (option (list (list byte))) :=
  if bufsz c <? (lenN (prefix a) + lenN m1 + lenN m2 + lenN (suffix a)) mod size_range c then Ok None
  else Ok (Some (opt_item (prefix a) ++ [m1; m2] ++ opt_item (suffix a))).
Definition ps_pack_many (c : cfg) (a : affix) (items : list (list byte)) : res (option (list (list byte))) :=
  if bufsz c <? (lenN (prefix a) + lenN (suffix a) + size_in_byte c items) mod size_range c then Ok None
  else Ok (Some (opt_item (prefix a) ++ items ++ opt_item (suffix a))).
Definition ps_pack_heartbeat (a : affix) : list byte := prefix a ++ suffix a.

(** raw_data of prefix_suffix_packer (334-336) and of prefix_suffix_unpacker, include/ext/unpacker.h:723-725 *)
Definition ps_packed_raw_data (c : cfg) (a : affix) (msg : list byte) : res (list byte) :=
  fetch msg (lenN (prefix a)) ((lenN msg + 2 * size_range c - lenN (prefix a) - lenN (suffix a)) mod size_range c).
Definition ps_unpacked_raw_data (c : cfg) (a : affix) (msg : list byte) : res (list byte) :=
  if stripped c then fetch msg 0 (lenN msg) else ps_packed_raw_data c a msg.

(** fixed_length_packer, include/ext/packer.h:245-254 *)
Definition fx_pack_array (c : cfg) (bufs : option (list buf)) (native : bool) : res (bool * list byte) := pack_array c bufs true.
Definition fx_pack_one (msg : list byte) : res (option (list (list byte))) := Ok (Some [msg]).
Definition fx_pack_two (m1 m2 : list byte) : res (option (list (list byte))) := Ok (Some [m1; m2]).
Definition fx_pack_many (items : list (list byte)) : res (option (list (list byte))) := Ok (Some items).

(** The argument of a send_msg call *)
Inductive arg : Type :=
| AArray (bufs : option (list buf))     (* send_msg(pstr, len, num) and its one-buffer forms *)
| AOne (m : list byte)                  (* send_msg(msg) *)
| ATwo (m1 m2 : list byte)              (* send_msg(msg1, msg2) *)
| AMany (ms : list (list byte)).        (* send_msg(container) *)

(** What a send function (TCP_SEND_MSG, include/base.h:703-760, with do_direct_send_msg, include/socket.h:538-577)
    returns and which items it puts into the send buffer, given the results of packing; [can]: room in the
    send buffer or can_overflow. The array forms ignore the result of pack_msg and skip an empty message. *)
Definition send_items (can : bool) (arr : option (list buf) -> res (bool * list byte))
  (one : list byte -> res (option (list (list byte)))) (two : list byte -> list byte -> res (option (list (list byte))))
  (many : list (list byte) -> res (option (list (list byte)))) (x : arg) : res (bool * list (list byte)) :=
  if negb can then Ok (false, [])
  else
    let put r := bind r (fun o => match o with Some items => Ok (true, items) | None => Ok (false, []) end) in
    match x with
    | AArray bufs => bind (arr bufs) (fun '(_, m) => Ok (true, opt_item m))
    | AOne m => put (one m)
    | ATwo m1 m2 => put (two m1 m2)
    | AMany ms => put (many ms)
    end.

(** send_msg of a socket with ext::packer / prefix_suffix_packer / fixed_length_packer *)
Definition send_msg (c : cfg) (ndebug can : bool) : arg -> res (bool * list (list byte)) :=
  send_items can (fun b => pack_array c b false) (pack_one c ndebug) (pack_two c ndebug) (pack_many c ndebug).
Definition ps_send_msg (c : cfg) (a : affix) (can : bool) : arg -> res (bool * list (list byte)) :=
  send_items can (fun b => ps_pack_array c a b false) (ps_pack_one c a) (ps_pack_two c a) (ps_pack_many c a).
Definition fx_send_msg (c : cfg) (can : bool) : arg -> res (bool * list (list byte)) :=
  send_items can (fun b => fx_pack_array c b false) fx_pack_one fx_pack_two fx_pack_many.
