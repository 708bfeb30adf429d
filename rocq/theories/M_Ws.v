(** Messages over a web socket link: include/tcp/websocket/websocket.h:44-90 on include/tcp/socket.h and
    include/socket.h, with the types of include/ext/websocket.h:20-26 (ext::packer, and no unpacker).

    One direction of a link that stays up. Beast carries whole web socket messages: async_write of a buffer
    sequence is one message, async_read completes with one message (websocket.h:55 and 68). Not modelled: control
    frames, messages beyond Beast's own limit, memory exhaustion, the parameter prior, sync_send_msg. What happens to a
    message after parse_msg (handle_msg, include/socket.h:483-536) is in M_Handle; here it reaches the
    application, and handle_msg returns true, i.e. the receive buffer has room. *)
From Coq Require Import List NArith Bool.
From Verif Require Import M_Bytes M_Config M_PrefixSuffix M_Packer M_Queue.
Import ListNotations.
Open Scope N_scope.

(** ndebug: macro NDEBUG; beats: the packer has heartbeats (ext::packer does, include/ext/packer.h:141; the default of
    i_packer, include/base.h:235, leaves the message empty) *)
Record wcfg : Type := mk_wcfg { wc : cfg; ndebug : bool; beats : bool }.

(** the send functions of TCP_SEND_MSG, include/base.h:703-780, with NATIVE (send_native_msg); the native forms
    of one message are do_direct_send_msg(msg), include/socket.h:538-562, which skips an empty message; those of two
    messages and of a container are do_direct_send_msg(container), :564-577, which takes every item *)
Definition native_items (c : cfg) (can : bool) (x : arg) : res (bool * list (list byte)) :=
  if negb can then Ok (false, [])
  else match x with
  | AArray bufs => bind (pack_array c bufs true) (fun '(_, m) => Ok (true, opt_item m))
  | AOne m => Ok (true, opt_item m)
  | ATwo m1 m2 => Ok (true, [m1; m2])
  | AMany ms => Ok (true, ms)
  end.

Definition call_items (w : wcfg) (native can : bool) (x : arg) : res (bool * list (list byte)) :=
  if native then native_items (wc w) can x else send_msg (wc w) (ndebug w) can x.

(** send_heartbeat, include/tcp/socket.h:90-99 *)
Definition beat_items (w : wcfg) : res (list (list byte)) :=
  if beats w then bind (pack_heartbeat (wc w) (ndebug w)) (fun h => Ok (opt_item h)) else Ok [].

(** queue: send_buffer; writing: the items of the async_write in flight (sending_msgs), None: not sending;
    wire: the messages the peer has not read yet; reading: the peer's async_read is in flight; dead: an assertion
    failed or memory was misused *)
Record state : Type := mk_state {
  queue : list (list byte); writing : option (list (list byte)); wire : list (list byte); reading : bool; dead : bool }.

Inductive action : Type :=
| WSend (native can : bool) (x : arg)   (* the application calls a send function; can: room or can_overflow *)
| WBeat                                 (* check_heartbeat sends a heartbeat, include/socket.h:204-208: not while sending *)
| WWritten                              (* async_write completes, send_handler, include/tcp/socket.h:410-446 *)
| WForeign (m : list byte)              (* the sending end, which need not be this library, writes a message *)
| WRead.                                (* the peer's async_read completes, recv_handler, include/tcp/socket.h:347-382 *)

Inductive event : Type :=
| ECall (native : bool) (x : arg) (ok : bool)  (* a send function returned ok *)
| EBeat                                        (* a heartbeat was put into the send buffer *)
| EForeign (m : list byte)
| EGot (m : list byte)                         (* the peer's application is given a message *)
| EOdd                                         (* "read 0 byte without any errors is unexpected" *)
| EAbort.                                      (* assertion failed / undefined behaviour *)

(** do_send_msg, include/tcp/socket.h:384-412, with batch_msg_send_size() = 0, websocket.h:88: the send buffer's
    move_items_out(0, sending_msgs), include/container.h:214-231; W: the number of values of size_t *)
Definition do_send (W : N) (s : state) : state :=
  match writing s with
  | Some _ => s
  | None =>
    let '(a, q) := q_out_bytes W (mk_q (queue s) (bytes_of W (queue s))) 0 in
    match a with
    | [] => mk_state (qitems q) None (wire s) (reading s) (dead s)
    | _ => mk_state (qitems q) (Some a) (wire s) (reading s) (dead s)
    end
  end.

Definition enqueue (W : N) (s : state) (items : list (list byte)) : state :=
  do_send W (mk_state (queue s ++ items) (writing s) (wire s) (reading s) (dead s)).

Definition die (s : state) : state := mk_state (queue s) (writing s) (wire s) (reading s) true.

(** recv_handler without error: parse_msg, websocket.h:56-67, gives exactly the message read; a message of no bytes
    is the case "else if (!ec)", include/tcp/socket.h:371-375 *)
Definition recv (w : wcfg) (s : state) (m : list byte) (rest : list (list byte)) : state * list event :=
  if 0 <? lenN m then (mk_state (queue s) (writing s) rest true (dead s), [EGot m])
  else if ndebug w then (mk_state (queue s) (writing s) rest false (dead s), [EOdd])
  else (mk_state (queue s) (writing s) rest false true, [EAbort]).

Definition step (w : wcfg) (s : state) (a : action) : option (state * list event) :=
  let W := size_range (wc w) in
  if dead s then None
  else match a with
  | WSend native can x =>
    match call_items w native can x with
    | Ok (ok, items) => Some (if ok then enqueue W s items else s, [ECall native x ok])
    | Bad _ => Some (die s, [EAbort])
    end
  | WBeat =>
    match writing s with
    | Some _ => None
    | None =>
      match beat_items w with
      | Ok [] => Some (s, [])
      | Ok items => Some (enqueue W s items, [EBeat])
      | Bad _ => Some (die s, [EAbort])
      end
    end
  | WWritten =>
    match writing s with
    | None => None
    | Some items => Some (do_send W (mk_state (queue s) None (wire s ++ [concat items]) (reading s) (dead s)), [])
    end
  | WForeign m => Some (mk_state (queue s) (writing s) (wire s ++ [m]) (reading s) (dead s), [EForeign m])
  | WRead =>
    match reading s, wire s with
    | true, m :: rest => Some (recv w s m rest)
    | _, _ => None
    end
  end.

Fixpoint run (w : wcfg) (s : state) (l : list action) : option (state * list event) :=
  match l with
  | [] => Some (s, [])
  | a :: l' =>
    match step w s a with
    | None => None
    | Some (s1, e1) => match run w s1 l' with None => None | Some (s2, e2) => Some (s2, e1 ++ e2) end
    end
  end.

(** after the handshake: do_start, include/tcp/socket.h:241-248, and through it recv_msg, include/socket.h:329-331 *)
Definition init : state := mk_state [] None [] true false.

(** steps of the library and of the network, not of the application or a foreign sender *)
Definition own (a : action) : bool := match a with WWritten | WRead => true | _ => false end.
