(** Reception of datagrams: ext::udp_unpacker (include/ext/unpacker.h:369-387) and
    udp::generic_socket::do_recv_msg / recv_handler (include/udp/socket.h:264-328).

    Simplifications: one receive chain, ST_ASIO_PASSIVE_RECV not defined, room in the receive buffer
    (handle_msg returns true, see M_Dispatch), pre_handle_msg does nothing (plain UDP). Addresses are
    numbers. A datagram longer than the buffer is cut by the operating system (POSIX recvfrom). *)
From Coq Require Import List NArith Bool.
From Verif Require Import M_Bytes M_Config.
Import ListNotations.
Open Scope N_scope.

Definition addr : Type := N.

(** raw_buff, is_connected, peer_addr, temp_addr (include/ext/unpacker.h:386, include/udp/socket.h:404-409)
    and whether an asynchronous receive is outstanding *)
Record ust : Type := mk_ust {
  uraw : list byte; uconn : bool; upeer : addr; utemp : addr; ureceiving : bool
}.

Inductive rerr : Type := ConnectionRefused | ConnectionReset | OtherError.

(** completion of the outstanding async_receive / async_receive_from *)
Inductive uevent : Type :=
| Arrive (from : addr) (d : list byte)
| RecvError (e : rerr).

Record uout : Type := mk_uout { uo_msgs : list (addr * list byte); uo_err : bool }.

(** udp_unpacker::parse_msg, include/ext/unpacker.h:373-374 *)
Definition udp_parse (c : cfg) (raw : list byte) (bytes : N) : res (list (list byte)) :=
  if bufsz c <? bytes then Bad AssertFail
  else bind (fetch raw 0 bytes) (fun m => Ok [m]).

(** do_recv_msg, include/udp/socket.h:264-292; the buffer is never empty for ST_ASIO_MSG_BUFFER_SIZE >= 2 *)
Definition udp_do_recv (s : ust) : ust :=
  mk_ust (uraw s) (uconn s) (upeer s) (utemp s) (negb (lenN (uraw s) =? 0)).

(** the errors recv_handler ignores, include/udp/socket.h:314-318; [win]: macro _WIN32 *)
Definition ignored (win : bool) (e : rerr) : bool :=
  win && match e with ConnectionRefused | ConnectionReset => true | OtherError => false end.

(** the kernel fills the buffer (and temp_addr for an unconnected socket), then recv_handler runs,
    include/udp/socket.h:294-328 *)
Definition udp_step (c : cfg) (win : bool) (s : ust) (ev : uevent) : res (ust * uout) :=
  if negb (ureceiving s) then Ok (s, mk_uout [] false)        (* nobody receives: the datagram stays in the kernel *)
  else match ev with
  | Arrive from d =>
    let got := takeN (lenN (uraw s)) d in
    bind (blit (uraw s) 0 got) (fun raw =>
    let s1 := mk_ust raw (uconn s) (upeer s) (if uconn s then utemp s else from) false in
    if 0 <? lenN got then
      bind (udp_parse c raw (lenN got)) (fun can =>
      Ok (udp_do_recv s1, mk_uout (map (fun m => (if uconn s1 then upeer s1 else utemp s1, m)) can) false))
    else Ok (udp_do_recv s1, mk_uout [] false))
  | RecvError e =>
    let s1 := mk_ust (uraw s) (uconn s) (upeer s) (utemp s) false in
    if ignored win e then Ok (udp_do_recv s1, mk_uout [] false)
    else Ok (s1, mk_uout [] true)
  end.

Fixpoint udp_run (c : cfg) (win : bool) (s : ust) (evs : list uevent) : res (ust * list uout) :=
  match evs with
  | [] => Ok (s, [])
  | e :: evs' => bind (udp_step c win s e) (fun '(s1, o) =>
                 bind (udp_run c win s1 evs') (fun '(s2, os) => Ok (s2, o :: os)))
  end.

(** a bound socket that has just started to receive (do_start, include/udp/socket.h:183-207) *)
Definition udp_init (mem : list byte) (connected : bool) (peer : addr) : ust :=
  udp_do_recv (mk_ust mem connected peer 0 false).

Definition udp_msgs (os : list uout) : list (addr * list byte) := concat (map uo_msgs os).
