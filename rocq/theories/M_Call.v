(** One call of a send function, with what it does to the caller's variables: TCP_SEND_MSG (include/base.h:703-780: send_msg and
    send_native_msg), direct_send_msg (include/socket.h:261-269), do_direct_send_msg (538-577), shrink_send_buffer (389-420).
    [W]: number of values of size_t. The packer is a parameter (see M_Packer.v). That send_msg() starts sending is left out (see M_Send.v),
    so is failing allocation. *)
From Coq Require Import List NArith Bool.
From Verif Require Import M_Bytes M_Config M_PrefixSuffix M_Packer M_Queue M_Send.
Import ListNotations.
Open Scope N_scope.

(** a packer: its pack_msg functions *)
Record packer : Type := mk_packer {
  pk_array : option (list buf) -> bool -> res (bool * list byte);
  pk_one : list byte -> res (option (list (list byte)));
  pk_two : list byte -> list byte -> res (option (list (list byte)));
  pk_many : list (list byte) -> res (option (list (list byte))) }.
Definition the_packer (c : cfg) (ndebug : bool) : packer := mk_packer (pack_array c) (pack_one c ndebug) (pack_two c ndebug) (pack_many c ndebug).
Definition the_ps_packer (c : cfg) (a : affix) : packer := mk_packer (ps_pack_array c a) (ps_pack_one c a) (ps_pack_two c a) (ps_pack_many c a).
Definition the_fx_packer (c : cfg) : packer := mk_packer (fx_pack_array c) fx_pack_one fx_pack_two fx_pack_many.

(** send_msg, send_native_msg, direct_send_msg *)
Inductive how : Type := Packed | Native | Direct.
(** [by_ref]: the overload that takes in_msg_type& instead of in_msg_ctype&; containers are always passed by reference, arrays never changed *)
Record call : Type := mk_call { c_how : how; c_arg : arg; c_ref : bool; c_overflow : bool; c_prior : bool }.
(** the argument after its content was swapped or spliced away: include/ext/packer.h:112, 124-125, 137; include/container.h:128, 172;
    include/socket.h:570; do_direct_send_msg(list) leaves empty messages in the caller's list, splicing leaves none *)
Definition given_away (k : call) : arg :=
  match c_arg k with
  | AArray b => AArray b
  | AOne m => if c_ref k then AOne [] else AOne m
  | ATwo m1 m2 => if c_ref k then ATwo [] [] else ATwo m1 m2
  | AMany ms => match c_how k with Packed => AMany [] | _ => AMany (map (fun _ => []) ms) end
  end.

(** shrink_send_buffer; [sh]: calc_shrink_size if ST_ASIO_SHRINK_SEND_BUFFER is defined.
    Result: its result, the discarded messages, the send buffer *)
Definition make_room (W limit : N) (sh : option (N -> N)) (q : mqueue) : bool * list (list byte) * mqueue :=
  match sh with
  | None => (qtotal q <? limit, [], q)
  | Some calc => shrink W limit calc q
  end.
(** do_direct_send_msg(msg), include/socket.h:538-561: an empty message is not queued *)
Definition put_one (W : N) (prior : bool) (q : mqueue) (m : list byte) : mqueue :=
  match m with [] => q | _ => if prior then q_enqueue_front W q m else q_enqueue W q m end.
(** do_direct_send_msg(list), include/socket.h:563-577 *)
Definition put_all (W : N) (prior : bool) (q : mqueue) (ms : list (list byte)) : res mqueue :=
  if prior then q_move_in_front W q ms (bytes_of W ms) else q_move_in W q ms (bytes_of W ms).

(** the call: its result, the argument afterwards, the discarded messages, the send buffer *)
Definition do_call (W limit : N) (sh : option (N -> N)) (p : packer) (q : mqueue) (k : call) : res (bool * arg * list (list byte) * mqueue) :=
  let '(room, gone, q1) := if c_overflow k then (true, [], q) else make_room W limit sh q in
  if negb room then Ok (false, c_arg k, gone, q1)
  else
    let all ms := bind (put_all W (c_prior k) q1 ms) (fun q2 => Ok (true, given_away k, gone, q2)) in
    let packed r := bind r (fun o => match o with Some ms => all ms | None => Ok (false, c_arg k, gone, q1) end) in
    match c_arg k, c_how k with
    (* direct_send_msg has no such overload; see send_native_msg *)
    | AArray b, h => bind (pk_array p b (match h with Packed => false | _ => true end)) (fun '(_, m) => Ok (true, given_away k, gone, put_one W (c_prior k) q1 m))
    | AOne m, Packed => packed (pk_one p m)
    | AOne m, _ => Ok (true, given_away k, gone, put_one W (c_prior k) q1 m)
    | ATwo m1 m2, Packed => packed (pk_two p m1 m2)
    | ATwo m1 m2, _ => all [m1; m2]
    | AMany ms, Packed => packed (pk_many p ms)
    | AMany ms, _ => all ms
    end.
