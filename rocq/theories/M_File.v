(** Transferring files: file_client/file_client.h, file_server/file_socket.cpp, file_common/file_buffer.h and unpacker.h.

    Files are lists of bytes; fl_type (off_t) is a signed 64-bit number. Simplifications: reading an existing range and
    writing never fail, stdio buffers are written through. *)
From Coq Require Import List ZArith Bool.
From Verif Require Import M_Bytes.
Import ListNotations.
Open Scope Z_scope.

Definition zlen {A} (l : list A) : Z := Z.of_nat (length l).
Definition ztake {A} (n : Z) (l : list A) : list A := firstn (Z.to_nat n) l.
Definition zdrop {A} (n : Z) (l : list A) : list A := skipn (Z.to_nat n) l.
(** boost::asio::detail::default_max_transfer_size, the size of the buffers: file_buffer.h:13, unpacker.h:13 *)
Definition XFER : Z := 65536.
Definition OFF_RANGE : Z := 9223372036854775808.
Definition SIZE_T : Z := 18446744073709551616.

(** ** the range of one link: file_client.h:99-104 (put_file) and 273-277 (get_file) *)
Definition slice (length link_num index : Z) : Z * Z :=
  let my_length := Z.quot length link_num in
  let offset := my_length * index in
  (offset, if link_num - 1 =? index then length - offset else my_length).
(** nothing is requested for an empty range, file_client.h:105 and 278 *)
Definition range_request (length link_num index : Z) : option (Z * Z) :=
  let '(o, n) := slice length link_num index in if 0 <? n then Some (o, n) else None.
(** file_socket.cpp:131: the server's check; the addition may overflow *)
Definition server_accepts (size offset length : Z) : res bool :=
  if negb ((0 <=? offset) && (0 <? length)) then Ok false
  else if OFF_RANGE <=? offset + length then Bad AssertFail   (* signed overflow: undefined *)
  else Ok (offset + length <=? size).

(** ** file_buffer: sending [total] bytes from position [pos] of [file] *)
(** read, file_buffer.h:26-47: the block read (none if fread fails), the new position and what remains *)
Definition fb_read (file : list byte) (pos total : Z) : option (list byte) * Z * Z :=
  if total <=? 0 then (Some [], pos, total)
  else
    let n := if XFER <? total then XFER else total in
    let got := ztake n (zdrop pos file) in
    if zlen got =? n then (Some got, pos + n, total - n) else (None, pos, total - n).
(** the constructor and on_msg_send, file_socket.cpp:33-48, file_client.h:183-198: blocks until one is empty or reading fails;
    the blocks sent and whether all went well *)
Fixpoint fb_send (fuel : nat) (file : list byte) (pos total : Z) : list (list byte) * bool :=
  match fuel with
  | O => ([], false)
  | S f => match fb_read file pos total with
           | (None, _, _) => ([], false)
           | (Some [], _, _) => ([], true)
           | (Some b, pos', total') => let '(l, ok) := fb_send f file pos' total' in (b :: l, ok)
           end
  end.

(** ** file_unpacker: receiving into a file *)
(** fwrite at a position; a gap is filled with zeros *)
Definition fwrite_at (file : list byte) (pos : Z) (l : list byte) : list byte :=
  let f := if zlen file <? pos then file ++ repeat x00 (Z.to_nat (pos - zlen file)) else file in
  ztake pos f ++ l ++ zdrop (pos + zlen l) f.
(** one receiving link: file position, what is left (total_len) *)
Record rxf : Type := mk_rxf { fpos : Z; left : Z }.
(** prepare_next_recv, unpacker.h:37-45: the size given to asio *)
Definition next_len (r : rxf) : Z := if XFER <? left r then XFER else left r mod SIZE_T.
(** a read of [l] and parse_msg, unpacker.h:21-35; None: impossible (a read delivers between 1 byte and the size asked for) *)
Definition rx_chunk (file : list byte) (r : rxf) (l : list byte) : option (res (list byte * rxf)) :=
  if (zlen l =? 0) || (next_len r <? zlen l) then None
  else Some (if XFER <? zlen l then Bad OutOfBounds                            (* asio writes past buffer *)
             else if left r <? zlen l then Bad AssertFail                      (* 24 *)
             else Ok (fwrite_at file (fpos r) l, mk_rxf (fpos r + zlen l) (left r - zlen l))).
(** is_finished, unpacker.h:18 *)
Definition finished (r : rxf) : bool := left r =? 0.
(** file_client.h:288-289, file_socket.cpp:209-210: position and unpacker for a range *)
Definition rx_open (offset length : Z) : rxf := mk_rxf offset length.

(** ** several links receiving into one file: link i gets its bytes in any pieces *)
Record xfer : Type := mk_x { dest : list byte; links : list (rxf * list byte) }.   (* link and the bytes it will still get *)
Fixpoint upd {A} (k : nat) (x : A) (l : list A) : list A := match k, l with _, [] => [] | O, _ :: r => x :: r | S k', y :: r => y :: upd k' x r end.
Definition xstep (x : xfer) (k : nat) (n : Z) : option (res xfer) :=
  match nth_error (links x) k with
  | None => None
  | Some (r, s) =>
      match rx_chunk (dest x) r (ztake n s) with
      | None => None
      | Some (Bad e) => Some (Bad e)
      | Some (Ok (f, r')) => Some (Ok (mk_x f (upd k (r', zdrop n s) (links x))))
      end
  end.
Fixpoint xsteps (x : xfer) (l : list (nat * Z)) : option (res xfer) :=
  match l with
  | [] => Some (Ok x)
  | (k, n) :: l' => match xstep x k n with Some (Ok x1) => xsteps x1 l' | y => y end
  end.
(** everything a link asks for and the server sends: get_file with all links connected *)
Definition get_link (fuel : nat) (file : list byte) (link_num index : Z) : list (rxf * list byte) :=
  match range_request (zlen file) link_num index with
  | None => []
  | Some (o, n) => match server_accepts (zlen file) o n with Ok true => [(rx_open o n, concat (fst (fb_send fuel file o n)))] | _ => [(rx_open o n, [])] end
  end.
Definition get_file (fuel : nat) (file : list byte) (link_num : nat) : xfer :=
  mk_x [] (flat_map (fun i => get_link fuel file (Z.of_nat link_num) (Z.of_nat i)) (seq 0 link_num)).
