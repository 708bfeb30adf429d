(** C137: with ST_ASIO_DELAY_CLOSE greater than zero, on_close comes that much later, and the socket is given free afterwards only. *)
From Coq Require Import List NArith Bool Lia.
From Verif Require Import M_Delay S_Delay.
Import ListNotations.
Open Scope N_scope.

Lemma lives_app D a b : lives D (a ++ b) = fold_left (turn D) b (lives D a).
Proof. unfold lives. apply fold_left_app. Qed.
Definition uses (tr : list dev) : option bool := fold_left used tr (Some false).
Lemma uses_app a b : uses (a ++ b) = fold_left used b (uses a).
Proof. unfold uses. apply fold_left_app. Qed.
Lemma used_none l : fold_left used l None = None.
Proof. induction l as [|[] l IH]; cbn; auto. Qed.

Record K (D : N) (tr : list dev) (s : dst) : Prop := {
  k_ph : match lives D tr with
         | Some New => d_started s = false /\ d_tim s = None /\ d_obs s = false /\ d_aci s = false
         | Some Up => d_started s = true /\ d_tim s = None /\ d_aci s = false
         | Some (Down t r) => d_started s = false /\ d_aci s = true /\ exists due, d_tim s = Some due /\ t + D * 1000 <= due
         | Some (Gone t) => d_started s = false /\ d_tim s = None /\ d_obs s = true /\ d_aci s = false
         | None => False
         end;
  k_use : match uses tr with
          | Some b => (b = false <-> lives D tr = Some New) /\ (lives D tr = Some Up -> d_obs s = false)
          | None => True
          end
}.
Lemma K_init D need : K D [] (d_init need).
Proof. constructor; cbn; repeat split; auto; discriminate. Qed.
Lemma K_step D tr s a s1 d : K D tr s -> (uses (tr ++ d) <> None \/ no_reset d) -> dstep D s a = Some (s1, d) -> K D (tr ++ d) s1.
Proof.
  intros [KP KU] OK E. destruct s as [now run st nd ob ac tm ops]. cbn [d_now d_run d_started d_need d_obs d_aci d_tim d_ops] in *.
  destruct a as [n|b|ok| |ok|b| | |need]; cbn [dstep d_start d_after d_now d_run d_started d_need d_obs d_aci d_tim d_ops] in E.
  - injection E as <- <-. rewrite app_nil_r. constructor; cbn; auto.
  - injection E as <- <-. rewrite app_nil_r. constructor; cbn; auto.
  - unfold d_start in E. cbn [d_now d_run d_started d_need d_obs d_aci d_tim d_ops] in E.
    destruct (negb st && _ && run) eqn:B; [|injection E as <- <-; rewrite app_nil_r; constructor; cbn; auto].
    destruct st; [discriminate B|]. destruct tm; [discriminate B|]. destruct ok; injection E as <- <-; [|rewrite app_nil_r; constructor; cbn; auto].
    constructor; rewrite ?lives_app, ?uses_app; cbn [fold_left d_now d_run d_started d_need d_obs d_aci d_tim d_ops].
    + destruct (lives D tr) as [[| |t r|t]|]; try contradiction KP; try (destruct KP as (KP & _); discriminate KP); cbn [turn]; try tauto.
      destruct KP as (_ & _ & due & X & _). discriminate X.
    + destruct (uses tr) as [[|]|]; cbn [used]; auto. destruct KU as (KU1 & KU2). destruct KU1 as (KU1 & _). rewrite (KU1 eq_refl) in *. cbn [turn]. destruct KP as (_ & _ & KP & _).
      split; [split; intros X; discriminate X|auto].
  - destruct st; [|discriminate]. destruct (lives D tr) as [[| |t r|t]|] eqn:EL; try contradiction KP; try (destruct KP as (KP & _); discriminate KP). destruct KP as (_ & -> & ->).
    destruct run.
    + injection E as <- <-. constructor; rewrite ?lives_app, ?uses_app, ?EL; cbn [fold_left turn d_now d_run d_started d_need d_obs d_aci d_tim d_ops].
      * split; [reflexivity|]. split; [reflexivity|]. eexists. split; [reflexivity|]. unfold d_wait. lia.
      * destruct (uses tr) as [b|]; cbn [used]; auto. destruct KU as (KU1 & KU2). split; [|discriminate]. split; [intros X; apply KU1 in X; discriminate X|discriminate].
    + assert (X : d = [DClosed now false; DOnClose now] /\ s1 = mk_d now false false nd true false None ops) by (destruct nd; cbn in E; injection E as <- <-; auto).
      destruct X as (-> & ->). constructor; rewrite ?lives_app, ?uses_app, ?EL; cbn [fold_left turn negb orb d_now d_run d_started d_need d_obs d_aci d_tim d_ops]; auto.
      destruct (uses tr) as [b|]; cbn [used]; auto. destruct KU as (KU1 & KU2). split; [|discriminate]. split; [intros X; apply KU1 in X; discriminate X|discriminate].
  - destruct tm as [due|]; [|discriminate]. destruct (run && (due <=? now)) eqn:B; [|discriminate]. apply andb_prop in B. destruct B as (-> & B). apply N.leb_le in B.
    destruct (lives D tr) as [[| |t r|t]|] eqn:EL; try contradiction KP; try (decompose [and] KP; discriminate). destruct KP as (-> & -> & due' & X & DU). injection X as <-.
    assert (T : negb r || (t + D * 1000 <=? now) = true) by (apply orb_true_iff; right; apply N.leb_le; lia).
    assert (X : (d = [DOnClose now] /\ s1 = mk_d now true false nd true false None ops) \/ (d = [DOnClose now; DStarted now] /\ s1 = mk_d now true true nd true false None ops))
      by (destruct nd, ok; cbn in E; injection E as <- <-; auto).
    destruct X as [(-> & ->)|(-> & ->)]; constructor; rewrite ?lives_app, ?uses_app, ?EL; cbn [fold_left turn]; rewrite ?T; cbn [turn d_now d_run d_started d_need d_obs d_aci d_tim d_ops]; auto.
    + destruct (uses tr) as [b|]; cbn [used]; auto. destruct KU as (KU1 & KU2). split; [|discriminate]. split; [intros X; apply KU1 in X; discriminate X|discriminate].
    + destruct (uses tr) as [[|]|]; cbn [used]; auto. destruct KU as ((KU1 & _) & _). discriminate (KU1 eq_refl).
  - injection E as <- <-. rewrite app_nil_r. constructor; cbn; auto.
  - injection E as <- <-. rewrite app_nil_r. constructor; cbn; auto.
  - destruct ops; [discriminate|]. injection E as <- <-. rewrite app_nil_r. constructor; cbn; auto.
  - unfold d_obsoleted in E. cbn [d_need d_obs d_aci] in E. destruct (negb nd && ob && negb ac) eqn:B; [|discriminate]. apply andb_prop in B. destruct B as (B & B3). apply andb_prop in B. destruct B as (_ & ->). destruct ac; [discriminate B3|].
    destruct tm; [discriminate|]. injection E as <- <-. destruct OK as [OK|OK]; [|exfalso; apply (OK now); left; reflexivity].
    rewrite uses_app in OK. cbn [fold_left] in OK. destruct (uses tr) as [b|] eqn:EU; cbn [used] in OK; [|congruence]. destruct KU as (KU1 & KU2).
    destruct (lives D tr) as [[| |t r|t]|] eqn:EL; try contradiction KP; try (decompose [and] KP; discriminate).
    + specialize (KU2 eq_refl). discriminate KU2.
    + constructor; rewrite ?lives_app, ?uses_app, ?EL, ?EU; cbn [fold_left turn used d_now d_run d_started d_need d_obs d_aci d_tim d_ops]; [tauto|]. split; [tauto|discriminate].
Qed.
Lemma K_run D l : forall tr s s1 d, K D tr s -> (no_restart (tr ++ d) \/ no_reset d) -> drun D s l = Some (s1, d) -> K D (tr ++ d) s1.
Proof.
  induction l as [|a l IH]; intros tr s s1 d KK OK E; cbn [drun] in E.
  - injection E as <- <-. rewrite app_nil_r. exact KK.
  - destruct (dstep D s a) as [[s2 d1]|] eqn:ES; [|discriminate]. destruct (drun D s2 l) as [[s3 d2]|] eqn:ER; [|discriminate]. injection E as <- <-. rewrite app_assoc in *.
    refine (IH _ _ _ _ (K_step _ _ _ _ _ _ KK _ ES) _ ER).
    + destruct OK as [OK|OK]; [left|right].
      * intros X. apply OK. fold (uses ((tr ++ d1) ++ d2)). rewrite uses_app, X. apply used_none.
      * intros t H. apply (OK t). apply in_or_app. auto.
    + destruct OK as [OK|OK]; [left; exact OK|right]. intros t H. apply (OK t). apply in_or_app. auto.
Qed.

(** ** C137 *)
(** starting, closing and on_close come in turns, on_close at least the delay after the closing; the socket is given free only then *)
Definition C137_statement : Prop := forall D need l s tr, drun D (d_init need) l = Some (s, tr) ->
  lives D tr <> None /\ (d_obsoleted s = true -> exists t, lives D tr = Some (Gone t)).
(** a client whose link broke and was made again; then set_reconnect(false) *)
Definition ex137 : list dact := [DStart true; DBegin; DTick 10; DClose; DEnd; DTick 5100; DFire true; DBegin; DTick 1000; DNeed false].
Theorem C137_refuted : exists D l s tr, drun D (d_init true) l = Some (s, tr) /\ 0 < D /\ d_obsoleted s = true /\ lives D tr = Some Up /\ d_ops s = 1%nat.
Proof. exists 5, ex137. do 2 eexists. split; [vm_compute; reflexivity|]. vm_compute. repeat split. Qed.
(** so the pool can hand it out for its next use while its link is up *)
Theorem C137_reuse_refuted : exists D l s tr, drun D (d_init true) l = Some (s, tr) /\ 0 < D /\ d_started s = true /\ d_ops s = 1%nat /\ tr = [DStarted 0; DClosed 10 true; DOnClose 5110; DStarted 5110; DReset 6110].
Proof. exists 5, (ex137 ++ [DReuse true]). do 2 eexists. split; [vm_compute; reflexivity|]. vm_compute. repeat split. Qed.
Theorem C137_statement_refuted : ~ C137_statement.
Proof.
  intros H. destruct C137_refuted as (D & l & s & tr & E & _ & O & L & _). destruct (H D true l s tr E) as (_ & X). destruct (X O) as (t & Y). rewrite L in Y. discriminate Y.
Qed.
Print Assumptions C137_refuted.
Print Assumptions C137_reuse_refuted.
Print Assumptions C137_statement_refuted.

(** where a socket object is started once per life (servers' sockets, clients that do not reconnect) *)
Theorem C137_partial : forall D need l s tr, drun D (d_init need) l = Some (s, tr) -> no_restart tr ->
  lives D tr <> None /\ (d_obsoleted s = true -> exists t, lives D tr = Some (Gone t)).
Proof.
  intros D need l s tr E NR. pose proof (K_run D l [] _ _ _ (K_init D need) (or_introl NR) E) as [KP KU]. cbn [app] in *. unfold d_obsoleted. unfold no_restart in NR. fold (uses tr) in NR.
  destruct (uses tr) as [b|]; [|congruence]. destruct KU as (_ & KU).
  destruct (lives D tr) as [[| |t r|t]|]; try contradiction KP; (split; [discriminate|]); intros O; apply andb_prop in O; destruct O as (O & O3); apply andb_prop in O; destruct O as (_ & O2).
  - decompose [and] KP. congruence.
  - rewrite KU in O2 by reflexivity. discriminate O2.
  - destruct KP as (_ & KP & _). rewrite KP in O3. discriminate O3.
  - exists t. reflexivity.
Qed.
(** two lives of an object, the service stopped during the second one *)
Example C137_partial_ex : exists s tr, drun 5 (d_init false) [DStart true; DClose; DTick 5100; DFire true; DReuse false; DStart true; DRun false; DClose] = Some (s, tr) /\ no_restart tr /\
  tr = [DStarted 0; DClosed 0 true; DOnClose 5100; DReset 5100; DStarted 5100; DClosed 5100 false; DOnClose 5100] /\ d_obsoleted s = true /\ lives 5 tr = Some (Gone 5100).
Proof. do 2 eexists. split; [vm_compute; reflexivity|]. split; [vm_compute; discriminate|]. vm_compute. repeat split. Qed.
(** sockets that reconnect, but are not reset for another use: on_close comes in time all the same *)
Theorem C137_reconnect_partial : forall D need l s tr, drun D (d_init need) l = Some (s, tr) -> no_reset tr -> lives D tr <> None.
Proof.
  intros D need l s tr E NR. pose proof (K_run D l [] _ _ _ (K_init D need) (or_intror NR) E) as [KP _]. cbn [app] in *. destruct (lives D tr); [discriminate|contradiction].
Qed.
Example C137_reconnect_partial_ex : exists s tr, drun 5 (d_init true) ex137 = Some (s, tr) /\ no_reset tr /\ tr = [DStarted 0; DClosed 10 true; DOnClose 5110; DStarted 5110].
Proof. do 2 eexists. split; [vm_compute; reflexivity|]. split; [|reflexivity]. intros t H. repeat (destruct H as [H|H]; [discriminate H|]). exact H. Qed.
(** a closed socket gets its on_close when the time has passed, if the service runs *)
Theorem C137_comes : forall D need l s tr t, drun D (d_init need) l = Some (s, tr) -> no_restart tr \/ no_reset tr -> lives D tr = Some (Down t true) ->
  d_run s = true -> exists due, d_tim s = Some due /\ forall ok, exists s1 d, drun D s [DTick (due - d_now s); DFire ok] = Some (s1, DOnClose (N.max due (d_now s)) :: d).
Proof.
  intros D need l s tr t E NR L R. pose proof (K_run D l [] _ _ _ (K_init D need) NR E) as [KP _]. cbn [app] in *. rewrite L in KP. destruct KP as (_ & _ & due & T & _). exists due. split; [exact T|]. intros ok.
  cbn [drun dstep d_tim d_run d_now]. rewrite T, R. replace (due <=? d_now s + (due - d_now s)) with true by (symmetry; apply N.leb_le; lia). cbn [andb].
  destruct (d_after _ _) as [s2 d2]. replace (d_now s + (due - d_now s)) with (N.max due (d_now s)) by lia. do 2 eexists. rewrite app_nil_r. reflexivity.
Qed.
Example C137_comes_ex : exists s tr, drun 5 (d_init true) [DStart true; DTick 7; DClose; DTick 3] = Some (s, tr) /\ no_restart tr /\ lives 5 tr = Some (Down 7 true) /\ d_run s = true /\ d_tim s = Some 5057.
Proof. do 2 eexists. split; [vm_compute; reflexivity|]. split; [vm_compute; discriminate|]. vm_compute. repeat split. Qed.
Print Assumptions C137_partial.
Print Assumptions C137_reconnect_partial.
Print Assumptions C137_comes.
