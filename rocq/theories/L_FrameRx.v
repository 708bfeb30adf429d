(** From a per-read refinement of the greedy frame reader to the specifications of S_Rx. *)
From Coq Require Import Arith List NArith Bool Lia ZifyBool ZifyNat ZifyN.
From Verif Require Import M_Bytes M_Config M_Rx S_Frame S_Rx L_Bytes L_Frame L_Rx.
Import ListNotations.
Open Scope N_scope.

Definition lpsplit (c : cfg) (p : list byte) : list (list byte) * list byte * bool :=
  let '(fs, r, e) := lp c p in (delivers c fs, r, e).

Lemma lpsplit_app c a b ms r e : lpsplit c a = (ms, r, e) ->
  lpsplit c (a ++ b) = if e then (ms, r ++ b, true) else let '(ms', r', e') := lpsplit c (r ++ b) in (ms ++ ms', r', e').
Proof.
  unfold lpsplit. destruct (lp c a) as [[fs ra] ea] eqn:E. intros H; inversion H; subst.
  rewrite (lp_app _ _ _ _ _ _ E). destruct e; [reflexivity|].
  destruct (lp c (r ++ b)) as [[fs2 r2] e2]. rewrite delivers_app. reflexivity.
Qed.

Section FrameRx.
Context {S : Type} (c : cfg) (u : unpk S) (I : rxst S -> list byte -> Prop).
Hypothesis H_none : forall st p, I st p -> lpsplit c p = ([], p, false).
Hypothesis H_feed : forall awf st p d st' o ms r e, I st p -> feed awf u st d = Some (st', o) ->
  lpsplit c (p ++ d) = (ms, r, e) -> all_msgs o = ms /\ any_err o = e /\ I st' (if e then [] else r).
Hypothesis H_read : forall st p, I st p -> exists s sp t lim, st = Reading s sp t lim /\ 0 < lim /\ t + lim <= sp.
Hypothesis H_err : forall st p, I st p -> exists s, read_error u st = Ok (Some s, []) /\ I (start_read u (u_reset u s)) [].

Lemma rx_frames s0 : I (start_read u s0) [] -> receives_frames c u s0.
Proof.
  intros HI awf bodies ds rest st o F E HR.
  destruct (lp_wire_prefix c bodies (concat ds) rest F E) as [r Hr].
  destruct (run_ok awf u (lpsplit c) I (lpsplit_app c) H_none (H_feed awf) ds _ [] st o
     (delivers c (map (frame c) (complete c bodies (lenN (concat ds))))) r HI HR) as (A & B & _).
  { cbn [app]. unfold lpsplit. rewrite Hr. reflexivity. }
  rewrite A, delivers_shown. auto.
Qed.

Lemma rx_stops s0 : I (start_read u s0) [] -> never_stops u s0.
Proof.
  intros HI awf ds st o HR.
  assert (HK : exists p, I st p).
  { eapply (run_keep awf u (fun st => exists p, I st p)); [|exists []; exact HI|exact HR].
    intros st0 d st' o' [p Hp] HF. destruct (lpsplit c (p ++ d)) as [[ms r] e] eqn:ES.
    destruct (H_feed _ _ _ _ _ _ _ _ _ Hp HF ES) as (_ & _ & HI'). eexists; exact HI'. }
  destruct HK as [p Hp]. destruct (H_read _ _ Hp) as (s & sp & t & lim & -> & H1 & H2).
  exists s, sp, t, lim. repeat split; auto. intros d D1 D2.
  destruct (feed awf u (Reading s sp t lim) d) as [[st' o']|] eqn:EF; [eauto|].
  exfalso. unfold feed in EF. destruct ((lenN d =? 0) || (lim <? lenN d)) eqn:Hx; [lia|discriminate].
Qed.

Lemma rx_bad s0 : I (start_read u s0) [] -> rejects_bad_header c u s0.
Proof.
  intros HI awf bodies junk rest ds d st1 o1 st o F HJ HB E HL HR1 HR.
  assert (Hb : bad_len c (hd_val c junk) = true) by (unfold bad_len, hd_val; cbv zeta in HB; lia).
  destruct (lp_wire_junk_prefix c bodies junk (concat ds) (d ++ rest) F E ltac:(lia)) as [r Hr].
  rewrite app_assoc in E.
  destruct (lp_wire_junk_bad c bodies junk (concat ds ++ d) rest F E ltac:(rewrite lenN_app; lia) Hb) as [r' Hr'].
  destruct (run_ok awf u (lpsplit c) I (lpsplit_app c) H_none (H_feed awf) ds _ [] st1 o1
     (delivers c (map (frame c) (complete c bodies (lenN (concat ds))))) r HI HR1) as (A & B & _).
  { cbn [app]. unfold lpsplit. rewrite Hr. reflexivity. }
  destruct (run_err awf u (lpsplit c) I (lpsplit_app c) H_none (H_feed awf) ds d _ [] st o
     (delivers c (map (frame c) bodies)) r'
     (delivers c (map (frame c) (complete c bodies (lenN (concat ds))))) r HI HR) as (A2 & B2 & _).
  { cbn [app]. unfold lpsplit. rewrite Hr. reflexivity. }
  { cbn [app]. unfold lpsplit. rewrite Hr'. reflexivity. }
  rewrite A, A2, !delivers_shown. auto.
Qed.

Lemma rx_break s0 : I (start_read u s0) [] -> clean_after_break c u s0.
Proof.
  intros HI awf ds st o HR.
  assert (HK : exists p, I st p).
  { eapply (run_keep awf u (fun st => exists p, I st p)); [|exists []; exact HI|exact HR].
    intros st0 d st' o' [p Hp] HF. destruct (lpsplit c (p ++ d)) as [[ms r] e] eqn:ES.
    destruct (H_feed _ _ _ _ _ _ _ _ _ Hp HF ES) as (_ & _ & HI'). eexists; exact HI'. }
  destruct HK as [p Hp]. destruct (H_err _ _ Hp) as (s & E1 & E2).
  exists s. split; [exact E1|]. split; [apply rx_frames; exact E2|]. split; [apply rx_bad; exact E2|apply rx_stops; exact E2].
Qed.

Lemma rx_all s0 : I (start_read u s0) [] ->
  receives_frames c u s0 /\ never_stops u s0 /\ rejects_bad_header c u s0 /\ clean_after_break c u s0.
Proof. intros HI. exact (conj (rx_frames _ HI) (conj (rx_stops _ HI) (conj (rx_bad _ HI) (rx_break _ HI)))). Qed.
End FrameRx.
