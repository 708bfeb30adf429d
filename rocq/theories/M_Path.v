(** The whole path of a message over TCP: send functions with a length-prefix packer, the sending side with its threads (M_Send.v), an
    operating system that takes bytes in pieces (M_Wire.v), the network, the receiving loop with any unpacker (M_Rx.v), the receive
    buffer and the strand that offers messages to the application (M_Handle.v).

    Sources: those of the models named; the joints are include/base.h:703-760 (send functions: pack, then queue), include/tcp/socket.h:
    90-98 (send_heartbeat), 347-382 (recv_handler: parse_msg, handle_msg, then the next read) and include/socket.h:483-536 (handle_msg),
    693-726 (no read is started while the receive buffer is full).

    Simplifications: those of the models named; the network delivers the bytes in order and loses none (TCP); the peer has a new socket
    object for each link (or one used again, see M_Reuse.v); no reading on demand (ST_ASIO_PASSIVE_RECV) and no synchronous receiving;
    the receiver resumes reading as soon as its buffer has room (it looks for that at intervals, C31). *)
From Coq Require Import List NArith Bool Arith.
From Verif Require Import M_Bytes M_Config M_Packer M_Queue M_Send M_Wire M_Rx.
From Verif Require M_Handle.
Import ListNotations.
Open Scope nat_scope.

Record pcfg : Type := mk_pc {
  pc : cfg; pc_nd : bool;       (* packer and unpacker, NDEBUG *)
  pc_s : send_cfg;
  pc_awf : bool;                (* see M_Rx.v *)
  pc_batch : bool;              (* ST_ASIO_DISPATCH_BATCH_MSG *)
  pc_lim : N                    (* recv_buf_size *)
}.
Definition hcfg (c : pcfg) : M_Handle.cfg := M_Handle.mk_c false (pc_batch c) false.

Record pst (S : Type) : Type := mk_p {
  p_w : wst;                    (* the sending socket *)
  p_net : list byte;            (* bytes taken and not read *)
  p_rx : rxst S; p_live : bool; (* the receiving loop; false: the link ended for the receiver *)
  p_tab : list (list byte);     (* messages received on this link; their numbers are the messages of M_Handle.v *)
  p_h : M_Handle.hst            (* the receiving socket's buffers and the strand that handles messages *)
}.
Arguments mk_p {S}. Arguments p_w {S}. Arguments p_net {S}. Arguments p_rx {S}. Arguments p_live {S}. Arguments p_tab {S}. Arguments p_h {S}.

(** what can be seen *)
Inductive pev : Type :=
| PV (v : wev)                      (* at the sender and on the wire *)
| PAsk (x : arg)                    (* a send function is called *)
| PHandled (ms : list (list byte)). (* the receiving application handled these messages *)

Inductive pact : Type :=
| PCall (i : nat) (x : arg) (prior overflow : bool)   (* thread i calls a send function *)
| PCallS (x : arg) (prior overflow : bool)            (* a callback calls a send function *)
| PBeat (i : nat)                                     (* a heartbeat is sent *)
| PWire (a : wact)                                    (* the sender and its system go on, links break, links are established *)
| PRead (k : nat)                                     (* the receiver's system delivers k bytes *)
| PEnd                                                (* the receiver's read ends with an error *)
| PHand (a : M_Handle.act).                           (* the strand that handles messages goes on *)

Definition body (tab : list (list byte)) (m : M_Handle.msg) : list byte := nth (fst m) tab [].
Definition number (from : nat) (ms : list (list byte)) : list M_Handle.msg := combine (seq from (length ms)) (map lenN ms).
(** what the application sees of the handling strand *)
Fixpoint seen (tab : list (list byte)) (es : list M_Handle.ev) : list pev :=
  match es with
  | [] => []
  | M_Handle.EHandled ms :: es' => PHandled (map (body tab) ms) :: seen tab es'
  | _ :: es' => seen tab es'
  end.
(** calls that are made by PCall, PCallS and PBeat only *)
Definition is_call (a : wact) : bool := match a with WSend (ACall _ _ _ _ | ACallS _ _ _) => true | _ => false end.
Definition on_wire (vs : list wev) : list byte := concat (map (fun v => match v with WBytes d => d | _ => [] end) vs).
(** the sending side makes a step *)
Definition wire_step {S} (c : pcfg) (u : unpk S) (s0 : S) (s : pst S) (a : wact) (e : list pev) : option (pst S * list pev) :=
  match wstep (pc_s c) (p_w s) a with
  | None => None
  | Some (w, vs) =>
      Some (match a with
            | WUp _ => mk_p w [] (start_read u s0) true [] M_Handle.handle0     (* a new link, a new peer *)
            | _ => mk_p w (p_net s ++ on_wire vs) (p_rx s) (p_live s) (p_tab s) (p_h s)
            end, e ++ map PV vs)
  end.
(** the messages of a completed read are given to handle_msg *)
Definition got {S} (c : pcfg) (s : pst S) (net : list byte) (rx : rxst S) (live : bool) (outs : list (list (list byte))) : option (pst S * list pev) :=
  match outs with
  | [] => Some (mk_p (p_w s) net rx live (p_tab s) (p_h s), [])
  | ms :: _ =>
      match M_Handle.step (hcfg c) (p_h s) (M_Handle.HRecv (number (length (p_tab s)) ms)) with
      | Some (h, es) => Some (mk_p (p_w s) net rx live (p_tab s ++ ms) h, seen (p_tab s ++ ms) es)
      | None => None
      end
  end.
(** no handle_msg is running, and a new read is started only if the buffer has room *)
Definition may_read {S} (c : pcfg) (s : pst S) : bool :=
  p_live s && match M_Handle.h_i (p_h s) with M_Handle.IIdle => true | _ => false end &&
  match p_rx s with Reading _ _ t _ => (0 <? t)%N || (M_Handle.h_bytes (p_h s) <? pc_lim c)%N | Halted _ => false end.

Definition pstep {S} (c : pcfg) (u : unpk S) (s0 : S) (s : pst S) (a : pact) : option (pst S * list pev) :=
  match a with
  | PCall i x p o =>
      match send_msg (pc c) (pc_nd c) true x with
      | Ok (true, it :: its) => wire_step c u s0 s (WSend (ACall i (it :: its) p o)) [PAsk x]
      | Ok _ => Some (s, [PAsk x])
      | Bad _ => None
      end
  | PCallS x p o =>
      match send_msg (pc c) (pc_nd c) true x with
      | Ok (true, it :: its) => wire_step c u s0 s (WSend (ACallS (it :: its) p o)) [PAsk x]
      | Ok _ => Some (s, [PAsk x])
      | Bad _ => None
      end
  | PBeat i =>
      match pack_heartbeat (pc c) (pc_nd c) with
      | Ok h => wire_step c u s0 s (WSend (ACall i [h] false true)) []
      | Bad _ => None
      end
  | PWire a => if is_call a then None else wire_step c u s0 s a []
  | PRead k =>
      if may_read c s && (0 <? k) && (k <=? length (p_net s)) then
        match feed (pc_awf c) u (p_rx s) (firstn k (p_net s)) with
        | Some (rx, os) => got c s (skipn k (p_net s)) rx true (map out_msgs os)
        | None => None
        end
      else None
  | PEnd =>
      if p_live s && match M_Handle.h_i (p_h s) with M_Handle.IIdle => true | _ => false end then
        match read_error u (p_rx s) with
        | Ok (_, ms) => got c s (p_net s) (p_rx s) false [ms]
        | Bad _ => None
        end
      else None
  | PHand a =>
      match a with
      | M_Handle.HRecv _ => None
      | _ => match M_Handle.step (hcfg c) (p_h s) a with
             | Some (h, es) => Some (mk_p (p_w s) (p_net s) (p_rx s) (p_live s) (p_tab s) h, seen (p_tab s) es)
             | None => None
             end
      end
  end.
Fixpoint prun {S} (c : pcfg) (u : unpk S) (s0 : S) (s : pst S) (l : list pact) : option (pst S * list pev) :=
  match l with
  | [] => Some (s, [])
  | a :: l' =>
    match pstep c u s0 s a with
    | None => None
    | Some (s1, t1) => match prun c u s0 s1 l' with None => None | Some (s2, t2) => Some (s2, t1 ++ t2) end
    end
  end.
(** n application threads, no link yet *)
Definition p_init {S} (u : unpk S) (s0 : S) (n : nat) : pst S := mk_p (w_init n) [] (start_read u s0) false [] M_Handle.handle0.
