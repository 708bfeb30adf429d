(** What is required of a conversation with an echo server. *)
From Coq Require Import List NArith Bool.
From Verif Require Import M_Bytes M_Config M_Send S_Send M_Wire S_Wire M_Rx M_Path S_Path S_Frame M_Talk.
Import ListNotations.

(** what came back so far is a beginning of the messages (not counting heartbeats) that the client's send functions accepted, [ta] being
    what happened on the way to the server, [tb] on the way back *)
Definition echoes (c : cfg) (ta tb : list pev) : Prop :=
  exists bodies rest, accepted c ta bodies /\ handled_now tb ++ rest = filter nonempty bodies.
(** everything came back *)
Definition all_echoed (c : cfg) (ta tb : list pev) : Prop :=
  exists bodies, accepted c ta bodies /\ handled_now tb = filter nonempty bodies.
(** neither calls of the client nor links begin or end; the client's handling function accepts *)
Definition t_onward (a : tact) : bool := match a with TA a | TB a => onward a | TBegin | TThread | TEnd => true end.
Definition t_rest {S1 S2} (c1 c2 : pcfg) (u1 : unpk S1) (i1 : S1) (u2 : unpk S2) (i2 : S2) (s : tst S1 S2) : Prop :=
  forall a, t_onward a = true -> tstep c1 c2 u1 i1 u2 i2 s a = None.
(** this direction of the link works *)
Definition works {S} (s : pst S) (t : list pev) : Prop :=
  ready (w_s (p_w s)) = true /\ w_open (p_w s) = true /\ failed (labels (wtr t)) = false /\ p_live s = true.
