(** Specification of sending: which bytes a call of a send function stands for. *)
From Coq Require Import List NArith Bool.
From Verif Require Import M_Bytes M_Config M_PrefixSuffix M_Packer S_Frame S_Affix.
Import ListNotations.
Open Scope N_scope.

(** the bytes one buffer contributes *)
Definition buf_bytes (b : buf) : list byte :=
  match bptr b with None => [] | Some mem => takeN (blen b) mem end.
(** the caller's obligation: a non-NULL pointer points to at least len[i] bytes *)
Definition readable (b : buf) : Prop := match bptr b with None => True | Some mem => blen b <= lenN mem end.

(** the mathematical (unbounded) total of the lengths of the non-NULL buffers *)
Fixpoint total_len (bufs : list buf) : N :=
  match bufs with
  | [] => 0
  | b :: bs => (match bptr b with None => 0 | Some _ => blen b end) + total_len bs
  end.

(** the body a send call stands for *)
Definition arg_body (x : arg) : list byte :=
  match x with
  | AArray None => []
  | AArray (Some bs) => concat (map buf_bytes bs)
  | AOne m => m
  | ATwo m1 m2 => m1 ++ m2
  | AMany ms => concat ms
  end.
(** arguments that exist in memory: buffers are readable and all their bytes fit the address space *)
Definition arg_ok (c : cfg) (x : arg) : Prop :=
  match x with
  | AArray None => False
  | AArray (Some bs) => Forall readable bs /\ Forall (fun b => blen b < size_range c) bs
  | _ => lenN (arg_body x) < size_range c
  end.

(** what an application does with a link: send messages, let the library send heartbeats *)
Inductive tx : Type := Send (x : arg) | Heartbeat.
Definition tx_body (t : tx) : list byte := match t with Send x => arg_body x | Heartbeat => [] end.
Definition tx_ok (c : cfg) (t : tx) : Prop := match t with Send x => arg_ok c x | Heartbeat => True end.

(** the bytes put into the send buffer by one step / by all steps, for a given send function and heartbeat *)
Definition tx_items (send : arg -> res (bool * list (list byte))) (hb : res (list byte)) (t : tx) : res (list (list byte)) :=
  match t with
  | Send x => bind (send x) (fun '(_, items) => Ok items)
  | Heartbeat => bind hb (fun h => Ok [h])
  end.
Fixpoint tx_wire (send : arg -> res (bool * list (list byte))) (hb : res (list byte)) (ts : list tx) : res (list byte) :=
  match ts with
  | [] => Ok []
  | t :: ts' => bind (tx_items send hb t) (fun items => bind (tx_wire send hb ts') (fun w => Ok (concat items ++ w)))
  end.
