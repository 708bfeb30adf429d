(** What is required of an echo server. *)
From Coq Require Import List NArith Bool Arith.
From Verif Require Import M_Bytes M_Send M_Echo.
From Verif Require M_Handle S_Handle S_Send.
Import ListNotations.

(** what should come back for the messages received *)
Definition echo_of (c : ecfg) (ms : list M_Handle.msg) : list (list byte) := flat_map (pk c) ms.
(** the peer sends nothing, and the link stays as it is; the peer reads what it gets *)
Definition no_peer (a : eact) : Prop :=
  match a with ERecv _ => False | ESend (AComplete _ ok) => ok = true | ESend (AUp _) | ESend ADown => False | _ => True end.
(** how many messages one call of on_msg_handle may add to the send buffer after it saw that there is room *)
Definition at_once (c : ecfg) : N := if ec_batch c then 10%N else 1%N.
