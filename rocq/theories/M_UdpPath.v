(** The whole path of a message over UDP: send functions with a length-prefix packer, the sending sides of any number of sockets
    (M_UdpSend.v), a network that loses, duplicates and reorders datagrams, the receiving loop with udp_unpacker (M_UdpRx.v), the
    receive buffer and the strand that offers messages to the application (M_Handle.v).

    Sources: those of the models named; the joints are include/base.h:942-953 (send functions: pack, then queue, whatever packing
    returned), include/socket.h:538-562 (an empty packed message is not queued), include/udp/socket.h:66-71 (send_heartbeat), 294-328
    (recv_handler: parse_msg, handle_msg, then the next receive), include/ext/udp.h:22-32 (the packer and unpacker used), include/socket.h:
    693-726 (nothing is received while the receive buffer is full).

    Simplifications: those of the models named; all datagrams have the receiver as their destination; a sender keeps its address, the
    senders' addresses differ, nobody else sends to the receiver or forges addresses; a datagram is not altered or cut by the network,
    both sides have the same ST_ASIO_MSG_BUFFER_SIZE; a send that the operating system reports as failed did not send, one that it reports
    as successful did; the limit of the send buffer (can_overflow) is left out, a call that is turned down does nothing; no
    reading on demand (ST_ASIO_PASSIVE_RECV), no synchronous receiving; reading resumes as soon as the receive buffer has room. *)
From Coq Require Import List NArith Bool Arith.
From Verif Require Import M_Bytes M_Config M_Packer M_FTimer M_RecvFlow.
From Verif Require M_UdpSend M_UdpRx M_Handle.
Import ListNotations.
Open Scope nat_scope.

Record qcfg : Type := mk_qc {
  qc : cfg; qc_nd : bool;       (* packer and unpacker, NDEBUG *)
  qc_win : bool;                (* _WIN32 *)
  qc_batch : bool;              (* ST_ASIO_DISPATCH_BATCH_MSG *)
  qc_lim : N                    (* recv_buf_size *)
}.
Definition hc (c : qcfg) : M_Handle.cfg := M_Handle.mk_c false (qc_batch c) false.

Definition dgram : Type := (M_UdpRx.addr * list byte)%type.
(** a sending socket: its state, the contents of the messages ever queued (their positions are the numbers of M_UdpSend.v), and whether
    the datagram being sent has left the host *)
Record snd1 : Type := mk_s1 { s_u : M_UdpSend.ust; s_tab : list (list byte); s_left : bool }.
Definition snd0 : snd1 := mk_s1 M_UdpSend.u0 [] false.
Record qst : Type := mk_q {
  q_snd : list snd1;            (* the senders; their addresses are their positions *)
  q_net : list dgram;           (* datagrams under way, with the sender's address *)
  q_rx : M_UdpRx.ust;           (* the receiving loop *)
  q_tab : list dgram;           (* messages received; their positions are the numbers of M_Handle.v *)
  q_h : M_Handle.hst            (* the receive buffer and the strand that handles messages *)
}.

(** what can be seen *)
Inductive qev : Type :=
| QAsk (i : nat) (prior native : bool) (bs : list buf)   (* a send function is called: send_msg, or send_native_msg *)
| QBeatV (i : nat)                                       (* a heartbeat is queued *)
| QLeft (i : nat) (d : list byte)                        (* the host of sender i puts a datagram onto the network *)
| QFail (i : nat)                                        (* a send of sender i failed *)
| QHandled (ds : list dgram).                            (* the receiving application handled these messages *)

Inductive qact : Type :=
| QCall (i : nat) (bs : list buf) (native prior : bool)
| QBeat (i : nat)
| QSend (i : nat) (a : M_UdpSend.uact)   (* sender i goes on *)
| QLeave (i : nat)                       (* its system puts the datagram being sent onto the network *)
| QLose (k : nat) | QDup (k : nat)       (* the network loses or duplicates its k-th datagram *)
| QTake (k : nat)                        (* the k-th datagram is received *)
| QRecvErr (e : M_UdpRx.rerr)            (* receiving fails *)
| QHand (a : M_Handle.act).              (* the strand that handles messages goes on *)

Fixpoint upd {A} (l : list A) (i : nat) (x : A) : list A :=
  match l, i with [], _ => [] | _ :: l', O => x :: l' | y :: l', S i' => y :: upd l' i' x end.
Definition content (tab : list (list byte)) (m : N) : list byte := nth (N.to_nat m) tab [].
Definition body (tab : list dgram) (m : M_Handle.msg) : dgram := nth (fst m) tab (0%N, []).
Definition number (from : nat) (ms : list dgram) : list M_Handle.msg := combine (seq from (length ms)) (map (fun d => lenN (snd d)) ms).
(** what the application sees of the handling strand *)
Fixpoint seen (tab : list dgram) (es : list M_Handle.ev) : list qev :=
  match es with
  | [] => []
  | M_Handle.EHandled ms :: es' => QHandled (map (body tab) ms) :: seen tab es'
  | _ :: es' => seen tab es'
  end.
(** do_direct_send_msg with a message that is not empty *)
Definition queue (s : qst) (i : nat) (x : snd1) (prior : bool) (d : list byte) : option qst :=
  match M_UdpSend.ustep false (s_u x) (M_UdpSend.AEnq prior (N.of_nat (length (s_tab x)))) with
  | Some (u, _) => Some (mk_q (upd (q_snd s) i (mk_s1 u (s_tab x ++ [d]) (s_left x))) (q_net s) (q_rx s) (q_tab s) (q_h s))
  | None => None
  end.
(** what completions a send can have: success if the datagram has left the host, failure if it has not *)
Definition result_ok (left : bool) (r : M_UdpSend.ures) : bool := match r with M_UdpSend.ROk => left | _ => negb left end.
Definition is_fail (r : M_UdpSend.ures) : bool := match r with M_UdpSend.ROk => false | _ => true end.
(** no handle_msg is running, a receive is outstanding (it is started only if the buffer has room) *)
Definition may_recv (c : qcfg) (s : qst) : bool :=
  M_UdpRx.ureceiving (q_rx s) && match M_Handle.h_i (q_h s) with M_Handle.IIdle => true | _ => false end && (M_Handle.h_bytes (q_h s) <? qc_lim c)%N.
(** a receive completes; the messages are given to handle_msg *)
Definition got (c : qcfg) (s : qst) (net : list dgram) (ev : M_UdpRx.uevent) : option (qst * list qev) :=
  match M_UdpRx.udp_step (qc c) (qc_win c) (q_rx s) ev with
  | Bad _ => None
  | Ok (rx, o) =>
      match M_UdpRx.uo_msgs o with
      | [] => Some (mk_q (q_snd s) net rx (q_tab s) (q_h s), [])
      | ms =>
          match M_Handle.step (hc c) (q_h s) (M_Handle.HRecv (number (length (q_tab s)) ms)) with
          | Some (h, es) => Some (mk_q (q_snd s) net rx (q_tab s ++ ms) h, seen (q_tab s ++ ms) es)
          | None => None
          end
      end
  end.

Definition qstep (c : qcfg) (s : qst) (a : qact) : option (qst * list qev) :=
  match a with
  | QCall i bs native prior =>
      match nth_error (q_snd s) i, pack_array (qc c) (Some bs) native with
      | Some x, Ok (_, []) => Some (s, [QAsk i prior native bs])
      | Some x, Ok (_, d) => match queue s i x prior d with Some s1 => Some (s1, [QAsk i prior native bs]) | None => None end
      | _, _ => None
      end
  | QBeat i =>
      match nth_error (q_snd s) i, pack_heartbeat (qc c) (qc_nd c) with
      | Some x, Ok d => match queue s i x false d with Some s1 => Some (s1, [QBeatV i]) | None => None end
      | _, _ => None
      end
  | QSend i a =>
      match nth_error (q_snd s) i, a with
      | _, M_UdpSend.AEnq _ _ => None
      | Some x, M_UdpSend.ADone _ r =>
          if result_ok (s_left x) r then
            match M_UdpSend.ustep false (s_u x) a with
            | Some (u, _) => Some (mk_q (upd (q_snd s) i (mk_s1 u (s_tab x) false)) (q_net s) (q_rx s) (q_tab s) (q_h s), if is_fail r then [QFail i] else [])
            | None => None
            end
          else None
      | Some x, _ =>
          match M_UdpSend.ustep false (s_u x) a with
          | Some (u, _) => Some (mk_q (upd (q_snd s) i (mk_s1 u (s_tab x) (s_left x))) (q_net s) (q_rx s) (q_tab s) (q_h s), [])
          | None => None
          end
      | None, _ => None
      end
  | QLeave i =>
      match nth_error (q_snd s) i with
      | Some x =>
          match M_UdpSend.u_fly (s_u x), s_left x with
          | m :: _, false =>
              let d := content (s_tab x) m in
              Some (mk_q (upd (q_snd s) i (mk_s1 (s_u x) (s_tab x) true)) (q_net s ++ [(N.of_nat i, d)]) (q_rx s) (q_tab s) (q_h s), [QLeft i d])
          | _, _ => None
          end
      | None => None
      end
  | QLose k => match nth_error (q_net s) k with
               | Some _ => Some (mk_q (q_snd s) (remove_at k (q_net s)) (q_rx s) (q_tab s) (q_h s), [])
               | None => None
               end
  | QDup k => match nth_error (q_net s) k with
              | Some d => Some (mk_q (q_snd s) (q_net s ++ [d]) (q_rx s) (q_tab s) (q_h s), [])
              | None => None
              end
  | QTake k =>
      match nth_error (q_net s) k with
      | Some (from, d) =>
          (* a connected socket is given datagrams of its peer only *)
          if may_recv c s && (negb (M_UdpRx.uconn (q_rx s)) || (from =? M_UdpRx.upeer (q_rx s))%N) then got c s (remove_at k (q_net s)) (M_UdpRx.Arrive from d) else None
      | None => None
      end
  | QRecvErr e => if may_recv c s then got c s (q_net s) (M_UdpRx.RecvError e) else None
  | QHand a =>
      match a with
      | M_Handle.HRecv _ => None
      | _ => match M_Handle.step (hc c) (q_h s) a with
             | Some (h, es) => Some (mk_q (q_snd s) (q_net s) (q_rx s) (q_tab s) h, seen (q_tab s) es)
             | None => None
             end
      end
  end.
Fixpoint qrun (c : qcfg) (s : qst) (l : list qact) : option (qst * list qev) :=
  match l with
  | [] => Some (s, [])
  | a :: l' =>
    match qstep c s a with
    | None => None
    | Some (s1, t1) => match qrun c s1 l' with None => None | Some (s2, t2) => Some (s2, t1 ++ t2) end
    end
  end.
(** n senders that have not been started, a receiver that has just been, connected or not *)
Definition q0 (n : nat) (mem : list byte) (connected : bool) (peer : M_UdpRx.addr) : qst :=
  mk_q (repeat snd0 n) [] (M_UdpRx.udp_init mem connected peer) [] M_Handle.handle0.
