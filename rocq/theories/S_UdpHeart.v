(** Specification of the heartbeat of a UDP socket: what can be seen on the time line. *)
From Coq Require Import List ZArith Bool.
From Verif Require Import M_UdpHeart.
Import ListNotations.
Open Scope Z_scope.

(** the peer was heard of, its silence was reported, or the socket was started, at [r] *)
Definition peer_known (start : Z) (tr : list (Z * uout)) (r : Z) : Prop := r = start \/ In (r, VRecv true) tr \/ In (r, VWarn) tr.
(** the same for anybody *)
Definition any_known (start : Z) (tr : list (Z * uout)) (r : Z) : Prop := r = start \/ (exists p, In (r, VRecv p) tr) \/ In (r, VWarn) tr.
(** something was sent to the peer (or the socket was started) at [r] *)
Definition peer_told (start : Z) (tr : list (Z * uout)) (r : Z) : Prop := r = start \/ In (r, VSent true) tr.
(** nobody sets the clock *)
Definition usteady (l : list (Z * uin)) : Prop := forall t z, ~ In (t, UAdjust z) l.
(** only the peer sends to the socket; the socket sends to the peer only *)
Definition hears_peer_only (l : list (Z * uin)) : Prop := forall t, ~ In (t, URecv false) l.
Definition tells_peer_only (l : list (Z * uin)) : Prop := forall t, ~ In (t, USend false) l.

(** A peer that falls silent is reported in time, and as long as it is silent again and again. *)
Definition silence_reported (c : ucfg) : Prop := forall t0 off l s tr, uc_ok c -> 0 < uwall off t0 -> usteady l -> usteps c (u0 c t0 off) l = Some (s, tr) ->
  exists r, peer_known t0 tr r /\ u_t s - r < uc_int c * (uc_max c + 1) * 1000 + uc_late c.
(** The peer is sent something at least every two intervals. *)
Definition peer_served (c : ucfg) : Prop := forall t0 off l s tr x, uc_ok c -> 0 < uwall off t0 -> usteady l -> usteps c (u0 c t0 off) l = Some (s, tr) -> t0 <= x <= u_t s ->
  exists y, peer_told t0 tr y /\ y <= x <= y + (2 * uc_int c * 1000 + uc_late c + uc_slow c).
