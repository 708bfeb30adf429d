(** The reliable UDP socket around KCP, include/udp/reliable_socket.h: 41 (create_kcpcb), 100-111 (do_start, on_close),
    123-163 (do_send_msg, pre_handle_msg), 181-191 (TIMER_KCP_UPDATE), 200 (release_kcp); of include/udp/socket.h do_start (183-206),
    recv_handler (294-312) and do_send_msg/send_handler (330-384) as far as these call the former; include/ext/unpacker.h:375 (compose_msg).

    Sending in turn and congestion control are in M_UdpSend, receive errors in M_UdpRx, the details of closing in M_Life: here a call of the
    application and a completed operation are one step. [k_busy] stands for any handler that has locked the mutex and is using KCP for some time
    (KEnter, KLeave); on_close waits for such handlers. KCP itself (ikcp.c) is not part of the repository; assumed of it:
    ikcp_input may complete any messages, in any number; ikcp_recv takes the first complete message unless it is longer than the buffer
    it is given, in which case it fails and the message stays; ikcp_send refuses a message that is too long for its fragment counter. *)
From Coq Require Import List NArith Bool.
Import ListNotations.
Open Scope N_scope.

Definition msg : Type := list N.
Definition len (m : msg) : N := N.of_nat (length m).
Record cfg : Type := mk_cfg {
  c_buf : N;            (* ST_ASIO_MSG_BUFFER_SIZE, the array in pre_handle_msg *)
  c_max : N;            (* the longest message ikcp_send takes *)
  c_mode : bool;        (* set_connect_mode, ST_ASIO_UDP_CONNECT_MODE *)
  c_debug : bool }.     (* assertions are compiled in *)
Record kst : Type := mk_k {
  k_started : bool;
  k_closing : bool;                 (* between close() and on_close *)
  k_conn : bool;                    (* is_connected *)
  k_kcp : option (list msg);        (* the complete messages in KCP's receive queue *)
  k_timer : bool;                   (* TIMER_KCP_UPDATE *)
  k_busy : bool;                    (* a handler is inside KCP *)
  k_dead : bool }.                  (* an assertion has failed *)
Definition k0 : kst := mk_k false false false None false false false.

Inductive ev : Type :=
| EDone (m : msg)         (* KCP has completed a message of the peer *)
| EGive (m : msg)         (* a message is given to the application *)
| ERaw (m : msg)          (* a datagram is given to the application as it is *)
| EKcp (m : msg)          (* a message is taken over by KCP *)
| EWire (m : msg)         (* a message is sent as a datagram as it is *)
| ESent (m : msg)         (* on_msg_send, or SUCCESS of sync_send_msg *)
| EUpdate                 (* ikcp_update by the timer *)
| EGone                   (* the control block is released while a handler uses it *)
| EClose.
Inductive act : Type :=
| KCreate                           (* create_kcpcb *)
| KStart (bound connected : bool)   (* start(), and whether bind and connect succeed *)
| KData (d : msg) (l : list msg)    (* a datagram arrives and makes KCP complete these messages *)
| KSend (m : msg)                   (* a message is taken from the send buffer, and sent successfully if without KCP *)
| KUpdate                           (* TIMER_KCP_UPDATE expires *)
| KEnter | KLeave                   (* a handler uses KCP for a while *)
| KClose                            (* force_shutdown: close() *)
| KOnClose.                         (* on_close *)

(** ikcp_recv in a loop and compose_msg, reliable_socket.h:154-162; the boolean tells whether an assertion failed *)
Fixpoint drain (c : cfg) (q : list msg) : list msg * list ev * bool :=
  match q with
  | [] => ([], [], false)
  | m :: q' => if c_buf c <? len m then (q, [], false)
               else if c_debug c && (len m =? 0) then (q', [], true)
               else let '(r, e, x) := drain c q' in (r, EGive m :: e, x)
  end.
Definition step (c : cfg) (s : kst) (a : act) : option (kst * list ev) :=
  if k_dead s then None else
  match a with
  | KCreate => if k_started s then Some (s, [])
               else Some (mk_k false (k_closing s) (k_conn s) (Some []) (k_timer s) (k_busy s) false, if k_busy s then [EGone] else [])
  | KStart bound connected =>
      if k_started s || k_closing s then Some (s, [])
      else let timer := match k_kcp s with Some _ => true | None => k_timer s end in
           if bound then Some (mk_k true false (if c_mode c then connected else k_conn s) (k_kcp s) timer (k_busy s) false, [])
           else Some (mk_k false false (k_conn s) (k_kcp s) timer (k_busy s) false, [])
  | KData d l =>
      if negb (k_started s) || k_busy s then None
      else match k_kcp s with
           | Some q => if k_conn s then let '(r, e, x) := drain c (q ++ l) in
                                        Some (mk_k true false true (Some r) (k_timer s) false x, map EDone l ++ e)
                       else Some (s, [ERaw d])
           | None => Some (s, [ERaw d])
           end
  | KSend m =>
      if negb (k_started s) || k_busy s then None
      else match k_kcp s with
           | Some _ => if k_conn s then Some (s, (if len m <=? c_max c then [EKcp m] else []) ++ [ESent m])
                       else Some (s, [EWire m; ESent m])
           | None => Some (s, [EWire m; ESent m])
           end
  | KUpdate => if k_timer s && negb (k_busy s)
               then match k_kcp s with
                    | Some _ => Some (s, [EUpdate])
                    | None => Some (mk_k (k_started s) (k_closing s) (k_conn s) None false false false, [])
                    end
               else None
  | KEnter => match k_kcp s with
              | Some _ => if (k_started s || k_timer s) && negb (k_busy s) then Some (mk_k (k_started s) (k_closing s) (k_conn s) (k_kcp s) (k_timer s) true false, []) else None
              | None => None
              end
  | KLeave => if k_busy s then Some (mk_k (k_started s) (k_closing s) (k_conn s) (k_kcp s) (k_timer s) false false, []) else None
  | KClose => if k_started s then Some (mk_k false true (k_conn s) (k_kcp s) false (k_busy s) false, []) else Some (s, [])
  | KOnClose => if k_closing s && negb (k_busy s) then Some (mk_k false false (k_conn s) None false (k_busy s) false, [EClose]) else None
  end.
Fixpoint run (c : cfg) (s : kst) (l : list act) : option (kst * list ev) :=
  match l with
  | [] => Some (s, [])
  | a :: l' => match step c s a with
               | Some (s1, e1) => match run c s1 l' with Some (s2, e2) => Some (s2, e1 ++ e2) | None => None end
               | None => None
               end
  end.
