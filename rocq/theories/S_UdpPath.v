(** What is required of the whole path of a message over UDP. *)
From Coq Require Import List NArith Bool.
From Verif Require Import M_Bytes M_Config M_Packer S_Packer S_Frame M_UdpPath.
From Verif Require M_UdpRx M_UdpSend M_Handle.
Import ListNotations.

(** the content given to a send function *)
Definition given (bs : list buf) : list byte := concat (map buf_bytes bs).
(** the datagram that stands for it: the content itself for the native functions; for the others a header (the length) and the content.
    Nothing stands for an empty content and for one that is too long. *)
Definition as_datagram (c : cfg) (native : bool) (m : list byte) : option (list byte) :=
  match m with
  | [] => None
  | _ => if native then if (lenN m <=? bufsz c)%N then Some m else None
         else if fits c m then Some (frame c m) else None
  end.
Definition opt {A} (o : option A) : list A := match o with Some x => [x] | None => [] end.
(** the datagrams sender i has been asked to send, in the order of the calls; the heartbeat is a header without content *)
Fixpoint asked (c : cfg) (i : nat) (t : list qev) : list (list byte) :=
  match t with
  | [] => []
  | QAsk j _ native bs :: t' => (if Nat.eqb i j then opt (as_datagram c native (given bs)) else []) ++ asked c i t'
  | QBeatV j :: t' => (if Nat.eqb i j then [frame c []] else []) ++ asked c i t'
  | _ :: t' => asked c i t'
  end.
(** the contents given to the send functions of sender i *)
Fixpoint contents (i : nat) (t : list qev) : list (list byte) :=
  match t with
  | [] => []
  | QAsk j _ _ bs :: t' => (if Nat.eqb i j then [given bs] else []) ++ contents i t'
  | _ :: t' => contents i t'
  end.
(** the datagrams that left the hosts, in that order, with the address of the sender *)
Fixpoint sent (t : list qev) : list dgram :=
  match t with [] => [] | QLeft i d :: t' => (N.of_nat i, d) :: sent t' | _ :: t' => sent t' end.
Fixpoint sent_by (i : nat) (t : list qev) : list (list byte) :=
  match t with [] => [] | QLeft j d :: t' => (if Nat.eqb i j then [d] else []) ++ sent_by i t' | _ :: t' => sent_by i t' end.
(** the messages the receiving application handled, in that order, with the address they came with *)
Fixpoint handled (t : list qev) : list dgram :=
  match t with [] => [] | QHandled ds :: t' => ds ++ handled t' | _ :: t' => handled t' end.

Definition dgram_dec (x y : dgram) : {x = y} + {x <> y}.
Proof. decide equality; [apply (list_eq_dec Byte.byte_eq_dec)|apply N.eq_dec]. Defined.
Definition count (x : dgram) (l : list dgram) : nat := count_occ dgram_dec l x.
(** l with some elements left out *)
Fixpoint sublist {A} (l m : list A) : Prop :=
  match l, m with
  | [], _ => True
  | _, [] => False
  | x :: l', y :: m' => x = y /\ sublist l' m' \/ sublist l m'
  end.

(** the caller's obligations: the buffers exist *)
Definition call_ok (c : cfg) (a : qact) : Prop :=
  match a with QCall _ bs _ _ => Forall readable bs /\ Forall (fun b => (blen b < size_range c)%N) bs | _ => True end.
(** the network duplicates nothing; it delivers everything once and in order *)
Definition no_dup (a : qact) : Prop := match a with QDup _ => False | _ => True end.
Definition orderly (a : qact) : Prop := match a with QDup _ | QLose _ | QTake (S _) => False | _ => True end.
(** sender i is not asked to put a message before others; its sends do not fail; its calls are those of the native functions; it sends no heartbeats *)
Definition no_prior (i : nat) (a : qact) : Prop := match a with QCall j _ _ true => i <> j | _ => True end.
Definition no_fail (i : nat) (a : qact) : Prop := match a with QSend j (M_UdpSend.ADone _ r) => i = j -> r = M_UdpSend.ROk | _ => True end.
Definition native_only (i : nat) (a : qact) : Prop := match a with QCall j _ false _ => i <> j | QBeat j => i <> j | _ => True end.
(** nobody calls anything, nothing fails, the network delivers in order, the handling function of the application accepts *)
Definition onward (a : qact) : bool :=
  match a with
  | QSend _ (M_UdpSend.AReady | M_UdpSend.ALoad | M_UdpSend.ARun | M_UdpSend.AStrand | M_UdpSend.ADone _ M_UdpSend.ROk | M_UdpSend.ARes) | QLeave _ | QTake O => true
  | QHand (M_Handle.HMove | M_Handle.HTest | M_Handle.HPost | M_Handle.HRun | M_Handle.HMark | M_Handle.HRet true | M_Handle.HSet | M_Handle.HClear | M_Handle.HRepost | M_Handle.HFire) => true
  | _ => false
  end.
(** nothing of that is possible *)
Definition at_rest (c : qcfg) (s : qst) : Prop := forall a, onward a = true -> qstep c s a = None.
Definition next (c : qcfg) (s1 s : qst) : Prop := exists a t, onward a = true /\ qstep c s a = Some (s1, t).
