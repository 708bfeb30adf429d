(** Specifications for sockets made by add_socket: which addresses they use, what belongs to which socket. *)
From Coq Require Import List Bool Arith.
From Verif Require Import M_Bytes M_Reuse.
Import ListNotations.
Open Scope nat_scope.

Definition ev_id (e : uev) : nat :=
  match e with
  | EAdd i _ | ESet i _ | EConnect i _ _ | EBind i _ _ | EUp i | EDown i | EQueued i _ | ERefused i _ | EWrite i _ | EWritten i _
  | EIn i _ | EHandle i _ _ | EWait i _ | EStat i _ _ => i
  end.

(** ** addresses *)
(** the address a pair of arguments denotes, if any *)
Definition means (port : nat) (ip : ipt) : option ep :=
  match ip with INone => Some (mk_ep 0 port) | IGood a => Some (mk_ep a port) | IBad => None end.
(** what the application asked for: [None]: nothing usable *)
Record wish : Type := mk_wish { w_server : option ep; w_local : option ep; w_peer : option ep; w_mode : bool }.
Definition else_keep (n o : option ep) : option ep := match n with Some _ => n | None => o end.
(** a call of add_socket asks for these addresses and for the defaults where it names none; later calls of setters with valid addresses
    change that *)
Definition wish_step (c : ucfg) (i : nat) (w : wish) (e : uev) : wish :=
  if negb (ev_id e =? i) then w else
  match e with
  | EAdd _ f =>
      let d := Some (mk_ep 0 0) in let srv := Some (u_server c) in
      match u_kind c, f with
      | KClient, FOne p ip => mk_wish (means p ip) d d (u_cmode c)
      | KClient, FTwo p ip p2 ip2 => mk_wish (means p ip) (means p2 ip2) d (u_cmode c)
      | KUdp, FOne p ip => mk_wish srv (means p ip) d (u_cmode c)
      | KUdp, FTwo p ip p2 ip2 => mk_wish srv (means p ip) (means p2 ip2) (u_cmode c)
      | _, _ => mk_wish srv d d (u_cmode c)
      end
  | ESet _ (SServer p ip) => mk_wish (else_keep (means p ip) (w_server w)) (w_local w) (w_peer w) (w_mode w)
  | ESet _ (SLocal p ip) => mk_wish (w_server w) (else_keep (means p ip) (w_local w)) (w_peer w) (w_mode w)
  | ESet _ (SPeer p ip) => mk_wish (w_server w) (w_local w) (else_keep (means p ip) (w_peer w)) (w_mode w)
  | ESet _ SConnect => mk_wish (w_server w) (w_local w) (w_peer w) true
  | _ => w
  end.
Definition wish0 : wish := mk_wish None None None false.
Definition wish_of (c : ucfg) (i : nat) (tr : list uev) : wish := fold_left (wish_step c i) tr wish0.
(** a socket connects and binds as was asked for at that time *)
Definition as_asked (c : ucfg) (tr : list uev) : Prop :=
  forall a e b, tr = a ++ e :: b ->
  match e with
  | EConnect i from to => w_local (wish_of c i a) = Some from /\ w_server (wish_of c i a) = Some to
  | EBind i from to => w_local (wish_of c i a) = Some from /\ (if w_mode (wish_of c i a) then to <> None /\ w_peer (wish_of c i a) = to else to = None)
  | _ => True
  end.

(** ** what belongs to a socket *)
Record mon : Type := mk_m {
  m_rest : list byte;               (* bytes that arrived and are not a whole message yet *)
  m_recv : list (list byte);        (* messages that arrived *)
  m_hand : list (list byte);        (* messages that were handled *)
  m_que : list (list byte);         (* messages that were given to send_msg *)
  m_wr : list (list byte);          (* messages that were written *)
  m_fl : nat; m_ns : nat;           (* messages in the last write; messages in writes that succeeded *)
  m_true : bool                     (* the answers about statistics were right *)
}.
Definition mstep (i : nat) (m : mon) (e : uev) : mon :=
  if negb (ev_id e =? i) then m else
  match e with
  | EIn _ d => let '(ms, r) := cut (m_rest m) d in mk_m r (m_recv m ++ ms) (m_hand m) (m_que m) (m_wr m) (m_fl m) (m_ns m) (m_true m)
  | EDown _ => mk_m [] (m_recv m) (m_hand m) (m_que m) (m_wr m) (m_fl m) (m_ns m) (m_true m)
  | EHandle _ x true => mk_m (m_rest m) (m_recv m) (m_hand m ++ [x]) (m_que m) (m_wr m) (m_fl m) (m_ns m) (m_true m)
  | EQueued _ x => mk_m (m_rest m) (m_recv m) (m_hand m) (m_que m ++ [x]) (m_wr m) (m_fl m) (m_ns m) (m_true m)
  | EWrite _ l => mk_m (m_rest m) (m_recv m) (m_hand m) (m_que m) (m_wr m ++ map snd l) (length l) (m_ns m) (m_true m)
  | EWritten _ ok => mk_m (m_rest m) (m_recv m) (m_hand m) (m_que m) (m_wr m) 0 (if ok then m_ns m + m_fl m else m_ns m) (m_true m)
  | EStat _ s r => mk_m (m_rest m) (m_recv m) (m_hand m) (m_que m) (m_wr m) (m_fl m) (m_ns m) (m_true m && (s =? m_ns m) && (r =? length (m_recv m)))
  | _ => m
  end.
Definition m0 : mon := mk_m [] [] [] [] [] 0 0 true.
Definition mon_of (i : nat) (tr : list uev) : mon := fold_left (mstep i) tr m0.
(** everything a socket handles arrived on it, everything it writes was given to it, in order; its statistics count its messages *)
Definition own (i : nat) (tr : list uev) : Prop :=
  let m := mon_of i tr in
  (exists r, m_recv m = m_hand m ++ r) /\ (exists q, m_que m = m_wr m ++ q) /\ m_true m = true.

(** ** how many messages are in a write of socket [i] that was started and has not ended *)
Definition write_step (i : nat) (n : nat) (e : uev) : nat :=
  match e with
  | EWrite j l => if j =? i then length l else n
  | EWritten j _ => if j =? i then 0 else n
  | _ => n
  end.
Definition writing (i : nat) (tr : list uev) : nat := fold_left (write_step i) tr 0.
