(** C28, C29, C30: dispatching received messages. *)
From Coq Require Import List NArith Bool Arith Lia Permutation ZifyBool ZifyNat ZifyN.
From Verif Require Import M_FTimer M_Dispatch S_Dispatch L_Dispatch.
Import ListNotations.
Open Scope N_scope.

Lemma d0_inv : dinv d0.
Proof. split; cbn; intuition congruence. Qed.
Lemma dsteps_inv l : forall s s' tr, dinv s -> dsteps s l = Some (s', tr) -> dinv s' /\ replay (hands s) (is_handling (dpc s)) tr = Some (hands s', is_handling (dpc s')).
Proof.
  induction l as [|a l IH]; intros s s' tr I H; cbn [dsteps] in H; [inversion H; subst; split; [exact I|reflexivity]|]. destruct (dstep s a) as [[s1 t1]|] eqn:E; [|discriminate]. destruct (dsteps s1 l) as [[s2 t2]|] eqn:E2; [|discriminate]. inversion H; subst. destruct (dstep_inv _ _ _ _ I E) as (I1 & R1). destruct (IH _ _ _ I1 E2) as (I2 & R2). split; [exact I2|]. rewrite replay_app, R1. exact R2.
Qed.

(** ** C28: handled in order, each once, a refused message again before any later one; across closing and reconnecting *)
Theorem C28_in_order l s tr : dsteps d0 l = Some (s, tr) -> exists busy,
  replay [] false tr = Some (hands s, busy) /\ received tr = handled tr ++ hands s.
Proof. intros H. destruct (dsteps_inv l _ _ _ d0_inv H) as (_ & R). eexists. split; [exact R|]. exact (replay_conserves _ _ _ _ _ R). Qed.
Print Assumptions C28_in_order.
Example C28_example : exists s tr, dsteps d0 [DRecv [1; 2]; DTest; DPost; DRun; DMark; DRet false; DSetA; DRecv [3]; DSetB; DTest; DExpire; DBegin 0; DRun; DMark; DStep 0; DStep 0; DRet true; DClear; DRepost; DRun; DMark; DRet true] = Some (s, tr) /\ handled tr = [1; 2] /\ hands s = [3].
Proof. do 2 eexists. split; [vm_compute; reflexivity|]. split; reflexivity. Qed.

(** ** C29: messages are never stranded *)
Definition no_close (l : list daction) : Prop := Forall (fun a => a <> DClose) l.
(** As long as the link is up and there are messages, on_msg_handle is running or will be called in some continuation. *)
Definition C29_statement : Prop := forall l s tr, no_close l -> dsteps d0 l = Some (s, tr) -> hands s <> [] ->
  is_handling (dpc s) = true \/ exists l2 s2 tr2, no_close l2 /\ dsteps s l2 = Some (s2, tr2) /\ presents tr2 = true.

(** a state in which no message will ever be handled again *)
Definition dead (s : dst) : Prop := disp s = true /\ posted s = O /\ dpc s = PIdle /\ f_on (tm s) = false /\ ipc s <> IPost /\ Forall (fun '(h, _) => h <> HAgain) (f_run (tm s)).
Lemma Forall_remove_at {A} (P : A -> Prop) : forall l j, Forall P l -> Forall P (remove_at j l).
Proof.
  unfold remove_at. induction l as [|x l IH]; intros j F; [destruct j; constructor|]. inversion F; subst. destruct j as [|j]; cbn [firstn skipn app]; [assumption|]. constructor; [assumption|]. exact (IH j H2).
Qed.
Lemma dead_step s a s' tr : dead s -> dstep s a = Some (s', tr) -> dead s' /\ presents tr = false.
Proof.
  intros (A & B & C & D & E & F) H. unfold dstep in H. rewrite C in H.
  assert (ST : forall f, f_on f = false -> ft_stop f = f) by (intros f X; unfold ft_stop; rewrite X; reflexivity).
  destruct a; try (destruct (ipc s) eqn:IP; discriminate).
  - destruct (ipc s) eqn:IP; try discriminate. inversion H; subst. split; [|reflexivity]. unfold dead. cbn. destruct ms; repeat split; try assumption; congruence.
  - destruct (ipc s) eqn:IP; try discriminate. rewrite A in H. inversion H; subst. split; [|reflexivity]. unfold dead. cbn. repeat split; try assumption; congruence.
  - destruct (ipc s) eqn:IP; try discriminate. congruence.
  - rewrite B in H. destruct (ipc s) eqn:IP; discriminate.
  - unfold ft_expire in H. destruct (f_wait (tm s)); destruct (ipc s) eqn:IP; try discriminate; inversion H; subst; (split; [|reflexivity]); unfold dead, set_tm; cbn; rewrite IP; repeat split; try assumption; congruence.
  - unfold ft_begin in H. destruct (nth_error (f_q (tm s)) k) as [[w ok]|]; [|destruct (ipc s) eqn:IP; discriminate]. rewrite D in H. cbn [andb] in H.
    destruct (ipc s) eqn:IP; inversion H; subst; (split; [|reflexivity]); unfold dead, set_tm; cbn; rewrite IP; repeat split; try assumption; try congruence; constructor; try assumption; discriminate.
  - assert (X : exists f, ft_step (tm s) j = Some f /\ s' = set_tm s f (posted s) /\ tr = []) by (destruct (ft_step (tm s) j) as [f|]; destruct (ipc s); try discriminate; inversion H; eauto).
    destruct X as (f & X & -> & ->). split; [|reflexivity]. unfold ft_step in X. destruct (nth_error (f_run (tm s)) j) as [[h w]|] eqn:NJ; [|discriminate].
    assert (HA : h <> HAgain). { apply nth_error_In in NJ. rewrite Forall_forall in F. exact (F _ NJ). }
    pose proof (Forall_remove_at _ _ j F) as FR.
    destruct h; [congruence| |]; inversion X; subst f; unfold dead, set_tm; cbn; repeat split; try assumption. destruct (same_seq w (f_no (tm s))); [constructor; [discriminate|exact FR]|exact FR].
  - destruct (up s); [|destruct (ipc s); discriminate]. assert (X : s' = mk_d false (rb s) (dm s) (disp s) (posted s) PIdle (ipc s) (ft_stop (tm s)) /\ tr = [EClosed]) by (destruct (ipc s) eqn:IP; inversion H; subst; rewrite ?IP; auto).
    destruct X as (-> & ->). split; [|reflexivity]. unfold dead. cbn. rewrite ST by exact D. repeat split; assumption.
  - destruct (up s); [destruct (ipc s); discriminate|]. assert (X : s' = mk_d false (rb s) (dm s) (disp s) (posted s) PIdle (ipc s) (ft_stop (tm s)) /\ tr = []) by (destruct (ipc s) eqn:IP; inversion H; subst; rewrite ?IP; auto).
    destruct X as (-> & ->). split; [|reflexivity]. unfold dead. cbn. rewrite ST by exact D. repeat split; assumption.
  - destruct (ipc s) eqn:IP; try discriminate. destruct (up s); [discriminate|]. rewrite B in H. destruct (ft_quiet (tm s)); [|discriminate]. inversion H; subst. split; [|reflexivity]. unfold dead. cbn. repeat split; try assumption; congruence.
Qed.
Lemma dead_forever l : forall s s' tr, dead s -> dsteps s l = Some (s', tr) -> dead s' /\ presents tr = false.
Proof.
  induction l as [|a l IH]; intros s s' tr D H; cbn [dsteps] in H; [inversion H; subst; auto|]. destruct (dstep s a) as [[s1 t1]|] eqn:E; [|discriminate]. destruct (dsteps s1 l) as [[s2 t2]|] eqn:E2; [|discriminate]. inversion H; subst. destruct (dead_step _ _ _ _ D E) as (D1 & P1). destruct (IH _ _ _ D1 E2) as (D2 & P2). split; [exact D2|]. unfold presents in *. rewrite existsb_app, P1, P2. reflexivity.
Qed.
(** False: a second refusal may start the retry timer again while the handler of its first expiration has not returned yet,
    which then marks the new timer as cancelled; no message is ever handled again. *)
Theorem C29_refuted : exists l s tr, no_close l /\ dsteps d0 l = Some (s, tr) /\ up s = true /\ hands s <> [] /\ is_handling (dpc s) = false /\
  forall l2 s2 tr2, dsteps s l2 = Some (s2, tr2) -> presents tr2 = false.
Proof.
  exists [DRecv [1]; DTest; DPost; DRun; DMark; DRet false; DSetA; DSetB; DExpire; DBegin 0; DRun; DMark; DRet false; DSetA; DStep 0; DStep 0; DSetB].
  do 2 eexists. split; [repeat constructor; discriminate|]. split; [vm_compute; reflexivity|]. split; [reflexivity|]. split; [discriminate|]. split; [reflexivity|].
  intros l2 s2 tr2 H. eapply dead_forever; [|exact H]. unfold dead. cbn. repeat split; try discriminate. constructor.
Qed.
Print Assumptions C29_refuted.
Theorem C29_statement_refuted : ~ C29_statement.
Proof. intros H. destruct C29_refuted as (l & s & tr & N & R & _ & NE & NH & D). destruct (H l s tr N R NE) as [X|(l2 & s2 & tr2 & _ & R2 & P)]; [congruence|]. rewrite (D l2 s2 tr2 R2) in P. discriminate. Qed.
Print Assumptions C29_statement_refuted.

(** It holds if the timer is used by one thread at a time: it is not started while one of its handlers runs and the handlers do
    not run while it is being started (which a single service thread guarantees), and no handler is delayed for 256 starts. *)
Definition is_set2 (p : dphase) : bool := match p with PSet2 => true | _ => false end.
Definition calm (s : dst) (a : daction) : bool :=
  match a with
  | DSetA => match f_run (tm s) with [] => true | _ => false end
  | DBegin k => negb (is_set2 (dpc s)) && match nth_error (f_q (tm s)) k with Some (w, _) => f_no (tm s) - w <? 256 | None => true end
  | DStep _ => negb (is_set2 (dpc s))
  | DClose => false
  | _ => true
  end.
Fixpoint calms (s : dst) (l : list daction) : bool :=
  match l with
  | [] => true
  | a :: l' => calm s a && match dstep s a with Some (s1, _) => calms s1 l' | None => true end
  end.
Record cinv (s : dst) : Prop := {
  ci_up : up s = true;
  ci_d : dinv s;
  ci_t : tinv (tm s);
  ci_set2 : dpc s = PSet2 -> f_on (tm s) = true /\ f_run (tm s) = [] /\ f_wait (tm s) = None;
  ci_held : dpc s = PIdle -> disp s = true -> (0 < posted s)%nat \/ ft_live (tm s) = true;
  ci_waiting : dpc s = PIdle -> disp s = false -> rb s <> [] -> (0 < posted s)%nat \/ ipc s <> IIdle
}.
Lemma cinv_step s a s' tr : cinv s -> calm s a = true -> dstep s a = Some (s', tr) -> cinv s'.
Proof.
  intros I CA H. pose proof (proj1 (dstep_inv _ _ _ _ (ci_d s I) H)) as DI. destruct I as [U D T S2 HE WA].
  destruct a; unfold dstep in H; cbn [calm] in CA.
  - destruct (ipc s) eqn:IP; try discriminate. inversion H; subst. split; cbn [up rb dm disp posted dpc ipc tm] in *; auto.
    intros P1 P2 P3. destruct ms as [|m ms]; [|right; discriminate]. rewrite app_nil_r in P3. destruct (WA P1 P2 P3) as [X|X]; [left; exact X|congruence].
  - destruct (ipc s) eqn:IP; try discriminate. inversion H; subst. split; cbn [up rb dm disp posted dpc ipc tm] in *; auto.
    intros P1 P2 P3. right. rewrite P2. discriminate.
  - destruct (ipc s) eqn:IP; try discriminate. inversion H; subst. split; cbn [up rb dm disp posted dpc ipc tm] in *; auto; intros; left; lia.
  - destruct (ipc s) eqn:IP; destruct (dpc s) eqn:DP; try discriminate; destruct (posted s) as [|p] eqn:PO; try discriminate; destruct (disp s) eqn:DS; try (destruct (rb s) as [|m r] eqn:RB); inversion H; subst; (split; cbn [up rb dm disp posted dpc ipc tm] in *; auto; try discriminate; try congruence).
  - destruct (ipc s) eqn:IP; destruct (dpc s) eqn:DP; try discriminate; inversion H; subst; (split; cbn [up rb dm disp posted dpc ipc tm] in *; auto; try discriminate; try congruence).
  - destruct (ipc s) eqn:IP; destruct (dpc s) eqn:DP; try discriminate; inversion H; subst; (split; cbn [up rb dm disp posted dpc ipc tm] in *; auto; destruct ok; try discriminate; try congruence).
  - destruct (ipc s) eqn:IP; destruct (dpc s) eqn:DP; try discriminate; inversion H; subst; (split; cbn [up rb dm disp posted dpc ipc tm] in *; auto; try discriminate; try congruence).
  - destruct (ipc s) eqn:IP; destruct (dpc s) eqn:DP; try discriminate; inversion H; subst; (split; cbn [up rb dm disp posted dpc ipc tm] in *; auto; try discriminate; try congruence); intros; left; lia.
  - destruct (f_run (tm s)) as [|x r] eqn:FR; [|discriminate].
    destruct (ipc s) eqn:IP; destruct (dpc s) eqn:DP; try discriminate; inversion H; subst; (split; cbn [up rb dm disp posted dpc ipc tm] in *; auto; try discriminate; try congruence); try (apply tinv_set1; assumption); intros _; cbn; auto.
  - destruct (ipc s) eqn:IP; destruct (dpc s) eqn:DP; try discriminate; destruct (S2 eq_refl) as (S2a & S2b & S2c); inversion H; subst; (split; cbn [up rb dm disp posted dpc ipc tm] in *; auto; try discriminate; try congruence);
      try (apply tinv_set2; assumption); intros; try (right; apply live_iff; cbn; split; [exact S2a|left; reflexivity]); exfalso; pose proof (di_disp s D ltac:(rewrite DP; auto)); congruence.
  - assert (X : exists f, ft_expire (tm s) = Some f /\ s' = set_tm s f (posted s)) by (destruct (ft_expire (tm s)) as [f|]; destruct (ipc s); destruct (dpc s); try discriminate; inversion H; eauto).
    destruct X as (f & X & ->). clear H. split; cbn [up rb dm disp posted dpc ipc tm set_tm] in *; auto.
    + eapply tinv_expire; eassumption.
    + intros P. destruct (S2 P) as (_ & _ & S2c). unfold ft_expire in X. rewrite S2c in X. discriminate.
    + intros P1 P2. destruct (HE P1 P2) as [Y|Y]; [left; exact Y|right; eapply live_expire; eassumption].
  - apply andb_prop in CA as (C1 & C2).
    assert (X : exists f c, ft_begin (tm s) k false = Some (f, c) /\ s' = set_tm s f (if c then S (posted s) else posted s)) by (destruct (ft_begin (tm s) k false) as [[f c]|]; destruct (ipc s); destruct (dpc s); try discriminate; inversion H; eauto).
    destruct X as (f & c & X & ->). clear H. split; cbn [up rb dm disp posted dpc ipc tm set_tm] in *; auto.
    + eapply tinv_begin; [exact T| |exact X]. intros w ok N. rewrite N in C2. apply N.ltb_lt in C2. exact C2.
    + intros P. rewrite P in C1. discriminate.
    + intros P1 P2. destruct (HE P1 P2) as [Y|Y]; [left; destruct c; lia|]. destruct (live_begin _ _ _ _ Y X) as [->|Z]; [left; lia|right; exact Z].
    + intros P1 P2 P3. destruct (WA P1 P2 P3) as [Y|Y]; [left; destruct c; lia|right; exact Y].
  - assert (X : exists f, ft_step (tm s) j = Some f /\ s' = set_tm s f (posted s)) by (destruct (ft_step (tm s) j) as [f|]; destruct (ipc s); destruct (dpc s); try discriminate; inversion H; eauto).
    destruct X as (f & X & ->). clear H. split; cbn [up rb dm disp posted dpc ipc tm set_tm] in *; auto.
    + eapply tinv_step; eassumption.
    + intros P. rewrite P in CA. discriminate.
    + intros P1 P2. destruct (HE P1 P2) as [Y|Y]; [left; exact Y|right; eapply live_step; eassumption].
  - discriminate.
  - rewrite U in H. destruct (ipc s); destruct (dpc s); discriminate.
  - rewrite U in H. destruct (ipc s); destruct (dpc s); discriminate.
Qed.
Lemma cinv_steps l : forall s s' tr, cinv s -> calms s l = true -> dsteps s l = Some (s', tr) -> cinv s'.
Proof.
  induction l as [|a l IH]; intros s s' tr I C H; cbn [dsteps calms] in *; [inversion H; subst; exact I|]. apply andb_prop in C as (C1 & C2). destruct (dstep s a) as [[s1 t1]|] eqn:E; [|discriminate]. destruct (dsteps s1 l) as [[s2 t2]|] eqn:E2; [|discriminate]. inversion H; subst. exact (IH _ _ _ (cinv_step _ _ _ _ I C1 E) C2 E2).
Qed.
Lemma cinv_0 : cinv d0.
Proof. split; cbn; try reflexivity; try discriminate; try congruence; [exact d0_inv|exact tinv_new]. Qed.
(** a continuation that ends in a call of the handler *)
Definition leads (s : dst) : Prop := exists l2 s2 tr2, calms s l2 = true /\ dsteps s l2 = Some (s2, tr2) /\ presents tr2 = true.
Lemma leads_step s a s1 t1 : calm s a = true -> dstep s a = Some (s1, t1) -> leads s1 -> leads s.
Proof.
  intros C E (l2 & s2 & tr2 & C2 & R & P). exists (a :: l2), s2, (t1 ++ tr2). cbn [calms dsteps]. rewrite C, E, R. split; [exact C2|]. split; [reflexivity|]. unfold presents in *. rewrite existsb_app, P, orb_true_r. reflexivity.
Qed.
Lemma leads_taken s : dpc s = PTaken -> leads s.
Proof.
  intros P. assert (ST : dstep s DMark = Some (mk_d (up s) (rb s) (dm s) true (posted s) PHandling (ipc s) (tm s), [EPresent (dm s)])) by (cbn [dstep]; rewrite P; destruct (ipc s); reflexivity).
  exists [DMark]. do 2 eexists. cbn [calms calm dsteps andb]. rewrite ST. split; [reflexivity|]. split; [reflexivity|reflexivity].
Qed.
Lemma run_held s p : dpc s = PIdle -> posted s = S p -> disp s = true -> dstep s DRun = Some (mk_d (up s) (rb s) (dm s) true p PTaken (ipc s) (tm s), []).
Proof. intros P E D. cbn [dstep]. rewrite P, E, D. destruct (ipc s); reflexivity. Qed.
Lemma run_take s p m r : dpc s = PIdle -> posted s = S p -> disp s = false -> rb s = m :: r -> dstep s DRun = Some (mk_d (up s) r (Some m) false p PTaken (ipc s) (tm s), []).
Proof. intros P E D R. cbn [dstep]. rewrite P, E, D, R. destruct (ipc s); reflexivity. Qed.
Lemma begin_eq s k f c : ft_begin (tm s) k false = Some (f, c) -> dstep s (DBegin k) = Some (set_tm s f (if c then S (posted s) else posted s), []).
Proof. intros E. cbn [dstep]. rewrite E. destruct (ipc s); reflexivity. Qed.
Lemma setb_eq s : dpc s = PSet2 -> dstep s DSetB = Some (mk_d (up s) (rb s) (dm s) (disp s) (posted s) PIdle (ipc s) (ft_set2 (tm s)), []).
Proof. intros E. cbn [dstep]. rewrite E. destruct (ipc s); reflexivity. Qed.
Lemma clear_eq s : dpc s = PClear -> dstep s DClear = Some (mk_d (up s) (rb s) (dm s) false (posted s) PRepost (ipc s) (tm s), []).
Proof. intros E. cbn [dstep]. rewrite E. destruct (ipc s); reflexivity. Qed.
Lemma repost_eq s : dpc s = PRepost -> dstep s DRepost = Some (mk_d (up s) (rb s) (dm s) (disp s) (S (posted s)) PIdle (ipc s) (tm s), []).
Proof. intros E. cbn [dstep]. rewrite E. destruct (ipc s); reflexivity. Qed.
Lemma leads_posted s : dpc s = PIdle -> (0 < posted s)%nat -> disp s = true \/ rb s <> [] -> leads s.
Proof.
  intros P PO W. destruct (posted s) as [|p] eqn:E; [lia|]. destruct (disp s) eqn:DS.
  - eapply (leads_step s DRun); [reflexivity|eapply run_held; eassumption|]. apply leads_taken. reflexivity.
  - destruct W as [W|W]; [discriminate|]. destruct (rb s) as [|m r] eqn:RB; [congruence|]. eapply (leads_step s DRun); [reflexivity|eapply run_take; eassumption|]. apply leads_taken. reflexivity.
Qed.
Lemma leads_live s : cinv s -> dpc s = PIdle -> disp s = true -> ft_live (tm s) = true -> leads s.
Proof.
  intros I P DS L.
  assert (Q : forall s, cinv s -> dpc s = PIdle -> disp s = true -> f_on (tm s) = true -> In (f_no (tm s), true) (f_q (tm s)) -> leads s).
  { clear. intros s I P DS O IN. apply In_nth_error in IN as (k & NK). eapply (leads_step s (DBegin k)).
    - cbn [calm]. rewrite P, NK, N.sub_diag. reflexivity.
    - apply begin_eq. unfold ft_begin. rewrite NK, O. reflexivity.
    - apply leads_posted; cbn; [exact P|lia|left; exact DS]. }
  pose proof L as L0. apply live_iff in L as (O & [W|IN]); [|apply Q; assumption].
  assert (E : ft_expire (tm s) = Some (mk_ft (f_on (tm s)) (f_no (tm s)) None (f_q (tm s) ++ [(f_no (tm s), true)]) (f_run (tm s)))) by (unfold ft_expire; rewrite W; reflexivity).
  assert (ST : dstep s DExpire = Some (set_tm s (mk_ft (f_on (tm s)) (f_no (tm s)) None (f_q (tm s) ++ [(f_no (tm s), true)]) (f_run (tm s))) (posted s), [])) by (cbn [dstep]; rewrite E; destruct (ipc s); reflexivity).
  eapply leads_step; [|exact ST|]; [reflexivity|]. apply Q; try assumption; [eapply cinv_step; [exact I| |exact ST]; reflexivity|]. cbn. apply in_or_app. right. left. reflexivity.
Qed.
Lemma leads_idle s : cinv s -> dpc s = PIdle -> hands s <> [] -> leads s.
Proof.
  intros I P NE. destruct (disp s) eqn:DS.
  - destruct (ci_held s I P DS) as [X|X]; [apply leads_posted; auto|apply leads_live; assumption].
  - assert (RB : rb s <> []). { intros X. apply NE. unfold hands. rewrite X. destruct (dm s) eqn:DM; [|reflexivity]. exfalso. assert (disp s = true) by (apply (di_idle s (ci_d s I) P); congruence). congruence. }
    destruct (ci_waiting s I P DS RB) as [X|X]; [apply leads_posted; auto|]. destruct (ipc s) eqn:IP; [congruence| |].
    + eapply (leads_step s DTest); [reflexivity|cbn [dstep]; rewrite IP, DS; reflexivity|]. eapply (leads_step _ DPost); [reflexivity|reflexivity|]. apply leads_posted; cbn; [exact P|lia|right; exact RB].
    + eapply (leads_step s DPost); [reflexivity|cbn [dstep]; rewrite IP; reflexivity|]. apply leads_posted; cbn; [exact P|lia|right; exact RB].
Qed.
Lemma leads_set1 s : cinv s -> dpc s = PSet1 -> leads s.
Proof.
  remember (length (f_run (tm s)) + length (filter (fun '(h, _) => match h with HSeq => true | _ => false end) (f_run (tm s))))%nat as n eqn:N. assert (LE : (length (f_run (tm s)) + length (filter (fun '(h, _) => match h with HSeq => true | _ => false end) (f_run (tm s))) <= n)%nat) by lia. clear N.
  revert s LE. induction n as [|n IH]; intros s LE I P.
  - assert (FR : f_run (tm s) = []) by (destruct (f_run (tm s)); [reflexivity|cbn in LE; lia]).
    assert (S1 : dstep s DSetA = Some (mk_d (up s) (rb s) (dm s) (disp s) (posted s) PSet2 (ipc s) (ft_set1 (tm s)), [])) by (cbn [dstep]; rewrite P; destruct (ipc s); reflexivity).
    assert (C1 : calm s DSetA = true) by (cbn [calm]; rewrite FR; reflexivity). pose proof (cinv_step _ _ _ _ I C1 S1) as I1. eapply leads_step; [exact C1|exact S1|]. eapply (leads_step _ DSetB); [reflexivity|apply setb_eq; reflexivity|].
    apply leads_idle; cbn [dpc]; [eapply (cinv_step _ DSetB); [exact I1|reflexivity|apply setb_eq; reflexivity]|reflexivity|].
    unfold hands. cbn [dm rb]. pose proof (di_held s (ci_d s I) ltac:(rewrite P; auto)) as DM. destruct (dm s); [discriminate|congruence].
  - destruct (f_run (tm s)) as [|[h w] r] eqn:FR.
    + apply IH; try assumption. rewrite FR. cbn. lia.
    + assert (X : exists f, ft_step (tm s) 0 = Some f /\ (length (f_run f) + length (filter (fun '(h, _) => match h with HSeq => true | _ => false end) (f_run f)) <= n)%nat).
      { pose proof (ti_run _ (ci_t s I)) as TR. rewrite FR in TR. apply Forall_cons_iff in TR as ((NA & _) & _). unfold ft_step. rewrite FR. cbn [nth_error]. change (remove_at 0 ((h, w) :: r)) with r. cbn [length filter] in LE.
        destruct h; [congruence| |]; eexists; (split; [reflexivity|]); cbn [f_run]; [destruct (same_seq w (f_no (tm s))); cbn in *; lia|lia]. }
      destruct X as (f & X & L). assert (ST : dstep s (DStep 0) = Some (set_tm s f (posted s), [])) by (cbn [dstep]; rewrite X; destruct (ipc s); reflexivity).
      assert (CA : calm s (DStep 0) = true) by (cbn [calm]; rewrite P; reflexivity). eapply leads_step; [exact CA|exact ST|]. apply IH; [exact L|exact (cinv_step _ _ _ _ I CA ST)|exact P].
Qed.
Lemma not_stranded l s s' tr : cinv s -> calms s l = true -> dsteps s l = Some (s', tr) -> hands s' <> [] ->
  is_handling (dpc s') = true \/ leads s'.
Proof.
  intros I0 C H NE. pose proof (cinv_steps _ _ _ _ I0 C H) as I. clear I0 C H. rename s into s0. rename s' into s. destruct (dpc s) eqn:P; cbn [is_handling].
  - right. apply leads_idle; assumption.
  - right. apply leads_taken. exact P.
  - left. reflexivity.
  - right. apply leads_set1; assumption.
  - right. assert (ST : dstep s DSetB = Some (mk_d (up s) (rb s) (dm s) (disp s) (posted s) PIdle (ipc s) (ft_set2 (tm s)), [])) by (cbn [dstep]; rewrite P; destruct (ipc s); reflexivity).
    eapply (leads_step s DSetB); [reflexivity|exact ST|]. apply leads_idle; [eapply cinv_step; [exact I| |exact ST]; reflexivity|reflexivity|exact NE].
  - right. assert (DM : dm s = None) by (apply (di_none s (ci_d s I)); auto). assert (RB : rb s <> []) by (intros X; apply NE; unfold hands; rewrite DM, X; reflexivity).
    eapply (leads_step s DClear); [reflexivity|apply clear_eq; exact P|]. eapply (leads_step _ DRepost); [reflexivity|apply repost_eq; reflexivity|]. apply leads_posted; cbn; [reflexivity|lia|auto].
  - right. assert (DM : dm s = None) by (apply (di_none s (ci_d s I)); auto). assert (RB : rb s <> []) by (intros X; apply NE; unfold hands; rewrite DM, X; reflexivity).
    eapply (leads_step s DRepost); [reflexivity|apply repost_eq; exact P|]. apply leads_posted; cbn; [reflexivity|lia|auto].
Qed.
Theorem C29_not_stranded_partial l s tr : calms d0 l = true -> dsteps d0 l = Some (s, tr) -> hands s <> [] ->
  is_handling (dpc s) = true \/ exists l2 s2 tr2, calms s l2 = true /\ dsteps s l2 = Some (s2, tr2) /\ presents tr2 = true.
Proof.
  intros C H NE. exact (not_stranded l d0 s tr cinv_0 C H NE).
Qed.
Print Assumptions C29_not_stranded_partial.
Example C29_example : exists s tr, let l := [DRecv [1; 2]; DTest; DPost; DRun; DMark; DRet false; DSetA; DSetB; DExpire; DBegin 0; DStep 0; DStep 0; DRun; DMark; DRet false; DSetA; DSetB] in
  dsteps d0 l = Some (s, tr) /\ calms d0 l = true /\ hands s = [1; 2] /\ is_handling (dpc s) = false.
Proof. do 2 eexists. split; [vm_compute; reflexivity|]. split; [vm_compute; reflexivity|]. split; reflexivity. Qed.

(** ** C30: dispatching survives a reconnect *)
Definition C30_statement : Prop := forall l s tr, dsteps d0 l = Some (s, tr) -> up s = true -> hands s <> [] -> In EReopened tr ->
  is_handling (dpc s) = true \/ exists l2 s2 tr2, dsteps s l2 = Some (s2, tr2) /\ presents tr2 = true.
(** False even with one thread: closing the link stops the retry timer of a refused message while the flag stays set. *)
Theorem C30_refuted : exists l s tr, dsteps d0 l = Some (s, tr) /\ up s = true /\ hands s <> [] /\ In EReopened tr /\ is_handling (dpc s) = false /\
  forall l2 s2 tr2, dsteps s l2 = Some (s2, tr2) -> presents tr2 = false.
Proof.
  exists [DRecv [1]; DTest; DPost; DRun; DMark; DRet false; DSetA; DSetB; DClose; DBegin 0; DStep 0; DStep 0; DReopen; DRecv [2]; DTest].
  do 2 eexists. split; [vm_compute; reflexivity|]. split; [reflexivity|]. split; [discriminate|]. split; [cbn; tauto|]. split; [reflexivity|].
  intros l2 s2 tr2 H. eapply dead_forever; [|exact H]. unfold dead. cbn. repeat split; try discriminate. constructor.
Qed.
Print Assumptions C30_refuted.
Theorem C30_statement_refuted : ~ C30_statement.
Proof. intros H. destruct C30_refuted as (l & s & tr & R & U & NE & IN & NH & D). destruct (H l s tr R U NE IN) as [X|(l2 & s2 & tr2 & R2 & P)]; [congruence|]. rewrite (D l2 s2 tr2 R2) in P. discriminate. Qed.
Print Assumptions C30_statement_refuted.

(** It holds if no message was waiting for its retry when the link is up again, whatever happened before (and if, from then on,
    the timer is used by one thread at a time): nothing is left behind, and whatever arrives is dispatched. *)
Lemma waiting_step s a s' tr : dinv s -> (dpc s = PIdle -> disp s = false -> rb s <> [] -> (0 < posted s)%nat \/ ipc s <> IIdle) -> dstep s a = Some (s', tr) ->
  dpc s' = PIdle -> disp s' = false -> rb s' <> [] -> (0 < posted s')%nat \/ ipc s' <> IIdle.
Proof.
  intros D W H. destruct a; unfold dstep in H; destruct (ipc s) eqn:IP; destruct (dpc s) eqn:DP; try discriminate;
    repeat match type of H with
    | context [match ft_expire ?f with _ => _ end] => destruct (ft_expire f) as [?|]
    | context [match ft_begin ?f ?k ?b with _ => _ end] => destruct (ft_begin f k b) as [[? ?]|]
    | context [match ft_step ?f ?k with _ => _ end] => destruct (ft_step f k) as [?|]
    | context [match posted s with _ => _ end] => destruct (posted s) eqn:?
    | context [if up s then _ else _] => destruct (up s) eqn:?
    | context [match up s with _ => _ end] => destruct (up s) eqn:?
    | context [ft_quiet ?f] => destruct (ft_quiet f) eqn:?
    | context [if disp s then Some _ else _] => destruct (disp s) eqn:?
    | context [match rb s with _ => _ end] => destruct (rb s) eqn:?
    end; try discriminate; inversion H; subst s' tr; clear H; unfold set_tm in *; cbn [up rb dm disp posted dpc ipc tm] in *; intros P1 P2 P3; try discriminate; try congruence;
    try (left; lia); try (right; congruence); try (right; rewrite IP; discriminate);
    try (rewrite P2 in *; right; discriminate);
    try (specialize (W eq_refl P2 P3)); try (destruct W as [W|W]; [left; try lia; match goal with |- context [if ?c then _ else _] => destruct c; lia end|congruence]); try (destruct W as [W|W]; [left; lia|try congruence; right; rewrite IP; discriminate]).
  all: try (destruct ms; [|right; discriminate]; rewrite app_nil_r in P3; specialize (W eq_refl P2 P3); destruct W as [W|W]; [left; exact W|congruence]).
  all: pose proof (di_disp s D ltac:(rewrite DP; auto)); congruence.
Qed.
Lemma waiting_steps l : forall s s' tr, dinv s -> (dpc s = PIdle -> disp s = false -> rb s <> [] -> (0 < posted s)%nat \/ ipc s <> IIdle) -> dsteps s l = Some (s', tr) ->
  dpc s' = PIdle -> disp s' = false -> rb s' <> [] -> (0 < posted s')%nat \/ ipc s' <> IIdle.
Proof.
  induction l as [|a l IH]; intros s s' tr D W H; cbn [dsteps] in H; [inversion H; subst; exact W|]. destruct (dstep s a) as [[s1 t1]|] eqn:E; [|discriminate]. destruct (dsteps s1 l) as [[s2 t2]|] eqn:E2; [|discriminate]. inversion H; subst. eapply IH; [exact (proj1 (dstep_inv _ _ _ _ D E))| |exact E2]. eapply waiting_step; eassumption.
Qed.
Theorem C30_survives_partial l s tr l2 s2 tr2 : dsteps d0 (l ++ [DReopen]) = Some (s, tr) -> disp s = false ->
  calms s l2 = true -> dsteps s l2 = Some (s2, tr2) ->
  hands s = [] /\ (hands s2 <> [] -> is_handling (dpc s2) = true \/ exists l3 s3 tr3, dsteps s2 l3 = Some (s3, tr3) /\ presents tr3 = true).
Proof.
  intros H DS C H2. destruct (dsteps_inv _ _ _ _ d0_inv H) as (I & _). assert (L : exists s1, dstep s1 DReopen = Some (s, [EReopened])).
  { clear - H. revert H. generalize d0. revert tr. induction l as [|a l IH]; intros tr d H; cbn [app dsteps] in H.
    - destruct (dstep d DReopen) as [[s1 t1]|] eqn:E; [|discriminate]. inversion H; subst. exists d. rewrite E. cbn [dstep] in E. destruct (ipc d); try discriminate. destruct (dpc d); try discriminate. destruct (up d); [discriminate|]. destruct (posted d); [|discriminate]. destruct (ft_quiet (tm d)); [|discriminate]. inversion E; subst. reflexivity.
    - destruct (dstep d a) as [[s1 t1]|]; [|discriminate]. destruct (dsteps s1 (l ++ [DReopen])) as [[s3 t3]|] eqn:E; [|discriminate]. inversion H; subst. eapply IH. exact E. }
  destruct L as (s1 & L). cbn [dstep] in L. destruct (ipc s1) eqn:IP; try discriminate. destruct (dpc s1) eqn:DP; try discriminate. destruct (up s1); [discriminate|]. destruct (posted s1) eqn:PO; [|discriminate]. destruct (ft_quiet (tm s1)) eqn:Q; [|discriminate].
  assert (SS : s = mk_d true (rb s1) (dm s1) (disp s1) 0 PIdle IIdle (tm s1)) by congruence. clear L.
  assert (RB : rb s = []). { destruct (rb s) as [|m r] eqn:R; [reflexivity|]. destruct (waiting_steps _ _ _ _ d0_inv ltac:(cbn; congruence) H ltac:(subst s; reflexivity) DS ltac:(congruence)) as [X|X]; subst s; cbn in X; [lia|congruence]. }
  assert (DM : dm s = None). { destruct (dm s) eqn:DM; [|reflexivity]. assert (disp s = true) by (apply (di_idle s I); [subst s; reflexivity|congruence]). congruence. }
  split; [unfold hands; rewrite DM, RB; reflexivity|]. intros NE.
  assert (CI : cinv s).
  { split; [subst s; reflexivity|exact I| |subst s; discriminate|congruence|congruence].
    assert (T : tm s = tm s1) by (subst s; reflexivity). rewrite T. unfold ft_quiet in Q. destruct (tm s1) as [on no w q r]. cbn [f_wait f_q f_run] in Q. destruct w; [discriminate|]. destruct q; [|discriminate]. destruct r; [|discriminate]. split; unfold ids; cbn; constructor. }
  destruct (not_stranded l2 s s2 tr2 CI C H2 NE) as [X|(l3 & s3 & tr3 & _ & R & P)]; [left; exact X|]. right. eauto.
Qed.
Print Assumptions C30_survives_partial.
Example C30_example : exists s tr s2 tr2, dsteps d0 ([DRecv [1]; DTest; DPost; DRun; DMark; DClose; DRet true; DClear; DRepost; DRun] ++ [DReopen]) = Some (s, tr) /\ disp s = false /\
  calms s [DRecv [2]; DTest] = true /\ dsteps s [DRecv [2]; DTest] = Some (s2, tr2) /\ hands s2 = [2].
Proof. do 4 eexists. split; [vm_compute; reflexivity|]. split; [reflexivity|]. split; [vm_compute; reflexivity|]. split; [vm_compute; reflexivity|reflexivity]. Qed.
