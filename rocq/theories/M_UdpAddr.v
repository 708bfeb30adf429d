(** Addresses of UDP messages: where a message goes and whom a received message is said to be from.

    Sources: include/udp/socket.h:80-86 (reset), 89, 96-97 (set_connect_mode, set_peer_addr), 183-207 (do_start), 294-328 (recv_handler),
    330-353 (do_send_msg), 440-455 (connect); include/base.h:314-330 (udp_msg keeps the address), 931-952 (UDP_SEND_MSG and its overloads);
    include/socket.h:75-107 (reset, clear_buffer).

    Simplified: addresses and messages are numbers; sends are not reordered by [prior] and never fail while the socket is open (the order
    and the errors of sending are those of M_UdpSend.v); the packer takes every message; the operating system gives a connected socket only
    datagrams of the address it is connected to. (POSIX systems may also hand over datagrams of others that arrived between bind and
    connect; not modelled.) Reliable UDP is M_Kcp.v. *)
From Coq Require Import List NArith Bool.
Import ListNotations.
Open Scope N_scope.

Record pst : Type := mk_p {
  p_peer : N;              (* peer_addr *)
  p_mode : bool;           (* connect_mode *)
  p_conn : bool;           (* is_connected *)
  p_kern : option N;       (* the address the operating system's socket is connected to *)
  p_open : bool;           (* the operating system's socket is open *)
  p_buf : list (N * N)     (* send_buffer: udp_msg::peer_addr and the message *)
}.
(** the constructors, include/udp/socket.h:60-61; [mode]: ST_ASIO_UDP_CONNECT_MODE *)
Definition p_new (peer : N) (mode : bool) : pst := mk_p peer mode false None false [].

Inductive pact : Type :=
| PPeer (a : N)                    (* set_peer_addr *)
| PMode                            (* set_connect_mode *)
| PStart (ok : bool)               (* start; connect() returns ok *)
| PClose                           (* the socket is closed *)
| PReset                           (* reset(), the object is used again *)
| PSend (to : option N) (m : N)    (* send_msg(msg) or send_msg(address, msg) *)
| PTake                            (* do_send_msg takes the next message *)
| PArrive (from m : N).            (* a datagram arrives and is received *)

Inductive pev : Type :=
| XPeer (a : N)                    (* the application set the peer's address *)
| XCall (to : option N) (m : N)    (* the application sent m *)
| XOut (dest m : N)                (* a datagram left for dest *)
| XFail (m : N)                    (* m could not be sent *)
| XGot (from label m : N)          (* a datagram of [from] is handed to the application with address [label] *)
| XReset.

Definition pstep (s : pst) (a : pact) : option (pst * list pev) :=
  match a with
  | PPeer x => Some (mk_p x (p_mode s) (p_conn s) (p_kern s) (p_open s) (p_buf s), [XPeer x])
  | PMode => Some (mk_p (p_peer s) true (p_conn s) (p_kern s) (p_open s) (p_buf s), [])
  | PStart ok =>
      (* include/udp/socket.h:183-207 *)
      if p_open s then None
      else Some (mk_p (p_peer s) (p_mode s) (if p_mode s then ok else p_conn s) (if p_mode s && ok then Some (p_peer s) else None) true (p_buf s), [])
  | PClose => if p_open s then Some (mk_p (p_peer s) (p_mode s) (p_conn s) None false (p_buf s), []) else None
  | PReset => if p_open s then None else Some (mk_p (p_peer s) (p_mode s) false None false [], [XReset])
  | PSend to m =>
      (* include/base.h:931-952: the overloads without an address pass the member peer_addr *)
      let want := match to with Some x => x | None => p_peer s end in
      Some (mk_p (p_peer s) (p_mode s) (p_conn s) (p_kern s) (p_open s) (p_buf s ++ [(want, m)]), [XCall to m])
  | PTake =>
      (* include/udp/socket.h:334-349 *)
      match p_buf s with
      | [] => None
      | (want, m) :: q =>
          let s' := mk_p (p_peer s) (p_mode s) (p_conn s) (p_kern s) (p_open s) q in
          if negb (p_open s) then Some (s', [XFail m])
          else if p_conn s then match p_kern s with Some k => Some (s', [XOut k m]) | None => Some (s', [XFail m]) end
          else Some (s', [XOut want m])
      end
  | PArrive from m =>
      (* include/udp/socket.h:280-285, 308-309 *)
      if p_open s && match p_kern s with Some k => from =? k | None => true end
      then Some (s, [XGot from (if p_conn s then p_peer s else from) m])
      else None
  end.
Fixpoint prun (s : pst) (l : list pact) : option (pst * list pev) :=
  match l with
  | [] => Some (s, [])
  | a :: l' =>
    match pstep s a with
    | None => None
    | Some (s1, t1) => match prun s1 l' with None => None | Some (s2, t2) => Some (s2, t1 ++ t2) end
    end
  end.
