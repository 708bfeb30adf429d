(** C35, C36, C37: the status of a link, graceful shutdown, and reconnecting. *)
From Coq Require Import List ZArith Bool Arith Lia.
From Verif Require Import M_Link S_Link L_Link.
Import ListNotations.
Open Scope Z_scope.

(** * C35 *)
Theorem C35_legal : forall cl max need l s t a s' t',
  ksteps cl max (k0 need) l = Some (s, t) -> kstep cl max s a = Some (s', t') ->
  legal (k_status s) (k_status s')
  /\ (k_status s' = BROKEN -> k_status s <> BROKEN -> exists b, In (KvClose b) t')
  /\ (k_status s' = CONNECTED -> k_status s <> CONNECTED -> In KvConnect t').
Proof.
  intros cl max need l s t a s' t' R H. pose proof (KI_steps _ _ _ _ _ _ (KI_k0 cl need) R) as [I1 I2 I3 I4 I5 I6 I7 I8 I9 I10]. clear R.
  destruct s as [st clo sta nd co at_ de sd rd lk po pc ss]. unfold toks in *. kproj.
  destruct a; kdo H; 
  try (match goal with E : nth_error _ _ = Some _ |- _ => pose proof (length_del_at _ _ _ _ E) end);
  rewrite ?Bool.andb_true_iff, ?Bool.andb_false_iff, ?Bool.negb_true_iff, ?Bool.negb_false_iff in *;
  repeat match goal with H : _ /\ _ |- _ => destruct H end;
  repeat match goal with H : link_eq _ _ = true |- _ => apply link_eq_spec in H; subst end.
  all: try solve [ split; [apply lg_same | split; intros; congruence] ].
  all: try (destruct I3 as [I3 _]; [assumption | assumption |]; subst; split; [apply lg_up | split; [intros; congruence | intros; left; reflexivity]]).
  all: try (rewrite (I2 ltac:(lia)); split; [apply lg_up | split; [intros; congruence | intros; left; reflexivity]]).
  all: try (rewrite (I5 eq_refl); split; [apply lg_grace | split; intros; congruence]).
  all: try (split; [apply lg_down | split; [intros; eexists; left; reflexivity | intros; congruence]]).
  all: try (split; [destruct sta; try constructor; discriminate | split; intros; congruence]).
Qed.
Print Assumptions C35_legal.

(** a graceful shutdown that goes its whole way *)
Definition grace_run : list kact :=
  [KCall; KStart; KReq true false; KRun; KStrand true; KStrand true; KSdFire; KSdGo; KSdFire; KSdGo; KSdErr; KRun; KStrand true; KStrand true; KStrand true; KAbort; KErr; KStrand true; KOnClose].
Example C35_legal_example : exists s t,
  ksteps false 2 (k0 false) grace_run = Some (s, t) /\ t = [KvAsk; KvConnect; KvStart; KvForced; KvShut; KvClose false] /\ k_status s = BROKEN.
Proof. do 2 eexists. split; [vm_compute; reflexivity|]. split; reflexivity. Qed.

Theorem C35_forced : forall cl max need l1 l2 s1 t1 s2 t2,
  ksteps cl max (k0 need) l1 = Some (s1, t1) -> k_status s1 = FORCE -> ksteps cl max s1 l2 = Some (s2, t2) ->
  (forall b, ~ In (KvClose b) t2) -> k_status s2 = FORCE.
Proof.
  intros cl max need l1 l2. revert l1. induction l2 as [|a l2 IH]; intros l1 s1 t1 s2 t2 R1 F R2 N; cbn in R2; [injection R2 as <- <-; exact F|].
  destruct (kstep cl max s1 a) as [[s3 t3]|] eqn:E; [|discriminate]. destruct (ksteps cl max s3 l2) as [[s4 t4]|] eqn:E4; [|discriminate]. injection R2 as <- <-.
  pose proof (C35_legal _ _ _ _ _ _ _ _ _ R1 E) as [G [D _]].
  assert (R3 : ksteps cl max (k0 need) (l1 ++ [a]) = Some (s3, t1 ++ t3)) by (rewrite ksteps_app, R1; cbn; rewrite E, app_nil_r; reflexivity).
  eapply IH; [exact R3 | | exact E4 | intros b Hb; apply (N b); apply in_or_app; auto].
  rewrite F in *. inversion G as [x Hx Hy | | | | | x Hx Hy]; auto. destruct D as [b Hb]; [auto | discriminate |]. exfalso. apply (N b). apply in_or_app; auto.
Qed.
Print Assumptions C35_forced.
(** a forced shutdown is followed by a request for a graceful one *)
Example C35_forced_example : exists s1 t1 s2 t2,
  ksteps false 2 (k0 false) [KCall; KStart; KReq false false; KRun; KStrand true; KStrand true] = Some (s1, t1) /\
  ksteps false 2 s1 [KReq true false; KStrand true; KRun; KStrand true] = Some (s2, t2) /\ k_status s1 = FORCE /\ t2 = [KvShut].
Proof. do 4 eexists. split; [vm_compute; reflexivity|]. split; [vm_compute; reflexivity|]. split; reflexivity. Qed.

(** ** a link is ready only while it has been started and not yet shut down *)
Definition C35_ready_statement : Prop := forall cl max need l s t,
  ksteps cl max (k0 need) l = Some (s, t) -> k_status s = CONNECTED -> k_started s = true.

(** connecting has succeeded, its handler has not run; force_shutdown finds the link broken and closes; then the handler runs *)
Definition late_connect : list kact :=
  [KCall; KStart; KConnFire; KConnGo true; KAttDone 0 true; KReq false false; KRun; KStrand true; KStrand true; KStrand true; KAttHandle 0].
Theorem C35_ready_refuted : exists l s t,
  ksteps true 500 (k0 true) l = Some (s, t) /\ t = [KvAsk; KvStart; KvAttempt 50; KvWish false; KvShut; KvConnect] /\ k_status s = CONNECTED /\ k_started s = false.
Proof. exists late_connect. do 2 eexists. split; [vm_compute; reflexivity|]. repeat split. Qed.
Print Assumptions C35_ready_refuted.
Theorem C35_ready_statement_refuted : ~ C35_ready_statement.
Proof. intro C. destruct C35_ready_refuted as (l & s & t & R & _ & A & B). rewrite (C _ _ _ _ _ _ R A) in B. discriminate. Qed.
Print Assumptions C35_ready_statement_refuted.

(** the excluded coincidences: a link that is not connected is being closed while a connection attempt is under way, and a link coming
    up between the strand's finding it broken and closing it *)
Definition under_way (s : kst) : bool :=
  match k_conn s with TFired _ _ => true | _ => false end || negb (length (k_att s) =? 0)%nat || match k_delay s with DFired | DGo _ => true | _ => false end.
Definition kcalm (s : kst) (a : kact) : bool :=
  match k_pc s, a with
  | PClose true, KStrand _ => negb (k_started s && under_way s)
  | PClose true, (KAttHandle _ | KStart) => false
  | _, _ => true
  end.
Fixpoint kcalms (cl : bool) (max : nat) (s : kst) (l : list kact) : bool :=
  match l with [] => true | a :: l' => kcalm s a && match kstep cl max s a with Some (s1, _) => kcalms cl max s1 l' | None => true end end.

Record KC (s : kst) : Prop := mk_KC {
  kc_toks : k_started s = false -> toks s = 0%nat;
  kc_up : k_status s = CONNECTED -> k_started s = true;
  kc_pc : k_pc s = PClose true -> k_status s = BROKEN }.
Lemma KC_k0 : forall n, KC (k0 n).
Proof. constructor; cbn; congruence. Qed.
Lemma KC_step : forall cl max s a s' t, KI cl s -> KC s -> kcalm s a = true -> kstep cl max s a = Some (s', t) -> KC s'.
Proof.
  intros cl max s a s' t [I1 I2 I3 I4 I5 I6 I7 I8 I9 I10] [J1 J2 J3] C H.
  destruct s as [st clo sta nd co at_ de sd rd lk po pc ss]. unfold toks in *. kproj.
  destruct a; kdo H; 
  try (match goal with E : nth_error _ _ = Some _ |- _ => pose proof (length_del_at _ _ _ _ E) end);
  rewrite ?Bool.andb_true_iff, ?Bool.andb_false_iff, ?Bool.negb_true_iff, ?Bool.negb_false_iff in *;
  repeat match goal with H : _ /\ _ |- _ => destruct H end;
  repeat match goal with H : link_eq _ _ = true |- _ => apply link_eq_spec in H; subst end;
  repeat match goal with H : (kcalls _ =? 0)%nat = true |- _ => apply Nat.eqb_eq in H; unfold kcalls in H; kproj end.
  all: klists; cbn [on_t on_d on_s on_p] in *.
  all: constructor; unfold toks; kproj; klists; cbn [on_t on_d on_s on_p] in *; intros; subst.
  all: try congruence; try lia; try (specialize (J1 eq_refl)); try (specialize (J2 eq_refl)); try (specialize (J3 eq_refl)); try congruence; try lia; auto.
  all: repeat match goal with
       | |- context [on_t (stop_c ?t)] => lazymatch goal with H : (on_t (stop_c t) <= _)%nat |- _ => fail | _ => pose proof (on_t_stop t) end
       | |- context [on_d (stop_d ?t)] => lazymatch goal with H : (on_d (stop_d t) <= _)%nat |- _ => fail | _ => pose proof (on_d_stop t) end
       end; try lia.
  all: try (cbn in C; discriminate C).
  all: try (destruct st; [reflexivity|]; specialize (J1 eq_refl); lia).
  - destruct use_close; cbn in C.
    + unfold under_way in C; kproj. destruct co as [| |]; cbn in C; try discriminate; (destruct at_; cbn in C; [|discriminate]); (destruct de; cbn in C; try discriminate); reflexivity.
    + rewrite (I6 eq_refl) in I2. destruct (on_t co + length at_ + on_d de)%nat as [|[|]] eqn:Z; [lia | | lia]. discriminate (I2 eq_refl).
  - destruct use_close; [discriminate (J3 eq_refl) | discriminate (I6 eq_refl)].
Qed.
Lemma KC_steps : forall cl max l s s' t, KI cl s -> KC s -> kcalms cl max s l = true -> ksteps cl max s l = Some (s', t) -> KC s'.
Proof.
  intros cl max; induction l as [|a l IH]; intros s s' t I J C H; cbn in H, C; [injection H as <- <-; exact J|].
  apply andb_true_iff in C. destruct C as [C1 C2].
  destruct (kstep cl max s a) as [[s1 t1]|] eqn:E; [|discriminate]. destruct (ksteps cl max s1 l) as [[s2 t2]|] eqn:E2; [|discriminate].
  injection H as <- <-. eapply IH; [eapply KI_step; eassumption | eapply KC_step; eassumption | exact C2 | eassumption].
Qed.

(** C35_ready_statement holds without these coincidences; missing: the case excluded by [kcalms], where it is false (C35_ready_refuted) *)
Theorem C35_ready_partial : forall cl max need l s t,
  ksteps cl max (k0 need) l = Some (s, t) -> kcalms cl max (k0 need) l = true -> k_status s = CONNECTED -> k_started s = true.
Proof. intros cl max need l s t R C. apply (kc_up s). exact (KC_steps _ _ _ _ _ _ (KI_k0 cl need) (KC_k0 need) C R). Qed.
Print Assumptions C35_ready_partial.
(** a client connects at the second attempt, loses the link, and reconnects; then it is shut down for good *)
Definition client_run : list kact :=
  [KCall; KStart; KConnFire; KConnGo true; KAttDone 0 false; KAttHandle 0; KDelayFire; KDelayGo 500; KDelaySet; KConnFire; KConnGo true; KAttDone 0 true; KAttHandle 0;
   KPeer; KErr; KStrand true; KStrand true; KStrand true; KOnClose; KStart; KConnFire; KConnGo true; KAttDone 0 true; KAttHandle 0].
Definition client_end : list kact := [KReq false false; KRun; KStrand true; KStrand true; KStrand true; KAbort; KErr; KStrand true; KOnClose].
Example C35_ready_example : exists s t,
  ksteps true 500 (k0 true) client_run = Some (s, t) /\ kcalms true 500 (k0 true) client_run = true /\ k_status s = CONNECTED /\
  t = [KvAsk; KvStart; KvAttempt 50; KvPrepare 500; KvAttempt 500; KvConnect; KvShut; KvClose true; KvStart; KvAttempt 50; KvConnect].
Proof. do 2 eexists. split; [vm_compute; reflexivity|]. split; [vm_compute; reflexivity|]. split; reflexivity. Qed.

(** * C36 *)
Lemma forced_app : forall a b, forced (a ++ b) = (forced a + forced b)%nat.
Proof. induction a as [|e a IH]; intro b; cbn; [reflexivity|]. destruct e; cbn; rewrite IH; reflexivity. Qed.

(** while a graceful shutdown goes on: what is left of it *)
Definition left_of (s : kst) : nat := match k_sd s with SArmed n | SFired n => n | _ => 0 end.
Definition sd_ok (s : kst) : Prop := match k_sd s with SArmed n | SFired n => (1 <= n)%nat | _ => True end.
Definition sd_run (s : kst) : nat := match k_sd s with SArmed _ | SFired _ => 1 | _ => 0 end.

Lemma grace_step : forall cl max s a s' t, KI cl s -> KS s -> k_started s = true -> k_status s = GRACEFUL -> sd_ok s ->
  kstep cl max s a = Some (s', t) -> k_status s' = GRACEFUL ->
  k_started s' = true /\ sd_ok s' /\ (left_of s = left_of s' + ticks [a])%nat /\ (sd_run s = sd_run s' + forced t)%nat.
Proof.
  intros cl max s a s' t [I1 I2 I3 I4 I5 I6 I7 I8 I9 I10] [J1 J2 J3] St Gr Ok H Gr'.
  destruct s as [st clo sta nd co at_ de sd rd lk po pc ss]. unfold toks, sd_on, forcing, left_of, sd_ok, sd_run in *. kproj. subst.
  destruct a; kdo H;
  try (match goal with E : nth_error _ _ = Some _ |- _ => pose proof (length_del_at _ _ _ _ E) end);
  rewrite ?Bool.andb_true_iff, ?Bool.andb_false_iff, ?Bool.negb_true_iff, ?Bool.negb_false_iff, ?Nat.ltb_lt, ?Nat.ltb_ge in *;
  repeat match goal with H : _ /\ _ |- _ => destruct H end; try discriminate; cbn [ticks forced]; try (repeat split; auto; lia).
  - destruct use_close; [destruct (J2 eq_refl); discriminate | discriminate (I6 eq_refl)].
  - discriminate (I5 eq_refl).
  - specialize (I4 eq_refl). congruence.
Qed.
Lemma grace_steps : forall cl max l s s' t, KI cl s -> KS s -> k_started s = true -> sd_ok s -> stays GRACEFUL cl max s l ->
  ksteps cl max s l = Some (s', t) -> (left_of s = left_of s' + ticks l)%nat /\ (sd_run s = sd_run s' + forced t)%nat /\ sd_ok s'.
Proof.
  intros cl max; induction l as [|a l IH]; intros s s' t I J St Ok Ss H; cbn in H; [injection H as <- <-; cbn; repeat split; auto|].
  cbn [stays] in Ss. destruct Ss as [Gr Ss]. destruct (kstep cl max s a) as [[s1 t1]|] eqn:E; [|discriminate].
  destruct (ksteps cl max s1 l) as [[s2 t2]|] eqn:E2; [|discriminate]. injection H as <- <-.
  assert (Gr1 : k_status s1 = GRACEFUL) by (destruct l; exact (proj1 Ss)).
  destruct (grace_step _ _ _ _ _ _ I J St Gr Ok E Gr1) as (A & B & C & D).
  destruct (IH s1 s2 t2) as (C2 & D2 & K); [eapply KI_step; eassumption | eapply KS_step; eassumption | assumption | assumption | assumption | assumption |].
  rewrite forced_app. replace (ticks (a :: l)) with (ticks [a] + ticks l)%nat by (destruct a; reflexivity). repeat split; [lia | lia | exact K].
Qed.

(** the watching timer of a graceful shutdown calls its handler at most [max] times while the shutdown lasts, and the last of these
    calls - no other - reports that the time is over *)
Theorem C36_bounded : forall cl max need l s t a s1 t1 l2 s2 t2,
  (1 <= max)%nat -> ksteps cl max (k0 need) l = Some (s, t) -> k_started s = true ->
  kstep cl max s a = Some (s1, t1) -> k_status s <> GRACEFUL -> k_status s1 = GRACEFUL ->
  ksteps cl max s1 l2 = Some (s2, t2) -> stays GRACEFUL cl max s1 l2 ->
  (ticks l2 <= max)%nat /\ forced t2 = (if (ticks l2 =? max)%nat then 1%nat else 0%nat).
Proof.
  intros cl max need l s t a s1 t1 l2 s2 t2 M R St E NG G R2 Ss.
  pose proof (KI_steps _ _ _ _ _ _ (KI_k0 cl need) R) as I. pose proof (KS_steps _ _ _ _ _ _ (KI_k0 cl need) (KS_k0 need) R) as J.
  assert (Q : k_started s1 = true /\ sd_ok s1 /\ (left_of s1 = max /\ sd_run s1 = 1%nat \/ left_of s1 = 0%nat /\ sd_run s1 = 0%nat)).
  { destruct I as [I1 I2 I3 I4 I5 I6 I7 I8 I9 I10], J as [J1 J2 J3]. clear R R2 Ss.
    destruct s as [st clo sta nd co at_ de sd rd lk po pc ss]. unfold toks, sd_on, forcing, left_of, sd_ok, sd_run in *. kproj. subst.
    destruct a; kdo E; try (exfalso; congruence).
    - split; [reflexivity|]. split; [exact M|]. left; split; reflexivity.
    - rewrite (J1 (or_introl (I5 eq_refl))). split; [reflexivity|]. split; [exact Logic.I|]. right; split; reflexivity. }
  destruct Q as (S1 & K1 & Q).
  destruct (grace_steps cl max l2 s1 s2 t2 (KI_step _ _ _ _ _ _ I E) (KS_step _ _ _ _ _ _ I J E) S1 K1 Ss R2) as (A & B & K2).
  destruct (Nat.eqb_spec (ticks l2) max) as [Z|Z]; unfold sd_ok, left_of, sd_run in *; destruct (k_sd s2); destruct Q as [[Qa Qb]|[Qa Qb]]; lia.
Qed.
Print Assumptions C36_bounded.
(** the server's link of grace_run: two calls are allowed; and the peer closes before that *)
Example C36_bounded_example : exists s t s1 t1 s2 t2,
  ksteps false 2 (k0 false) [KCall; KStart; KReq true false; KRun; KStrand true] = Some (s, t) /\ k_started s = true /\ k_status s <> GRACEFUL /\
  kstep false 2 s (KStrand true) = Some (s1, t1) /\ k_status s1 = GRACEFUL /\
  ksteps false 2 s1 [KSdFire; KSdGo; KReq true false; KSdFire; KSdGo; KSdErr; KRun] = Some (s2, t2) /\
  stays GRACEFUL false 2 s1 [KSdFire; KSdGo; KReq true false; KSdFire; KSdGo; KSdErr; KRun] /\ t2 = [KvForced].
Proof. do 6 eexists. split; [vm_compute; reflexivity|]. split; [reflexivity|]. split; [discriminate|]. split; [vm_compute; reflexivity|]. split; [reflexivity|].
  split; [vm_compute; reflexivity|]. split; [cbn; tauto | reflexivity]. Qed.

Definition shuts cl max s : Prop := exists l s' t, alone l /\ ksteps cl max s l = Some (s', t) /\ In KvShut t /\ k_status s' = FORCE.
Lemma shuts_step : forall cl max s a s1 t1, match a with KReq _ _ | KNeed _ | KCall | KPeer => False | _ => True end ->
  kstep cl max s a = Some (s1, t1) -> shuts cl max s1 -> shuts cl max s.
Proof.
  intros cl max s a s1 t1 A E (l & s' & t & B & R & I & F). exists (a :: l), s', (t1 ++ t). split; [intros x [<-|Hx]; [exact A | exact (B x Hx)]|].
  cbn [ksteps]. rewrite E, R. split; [reflexivity|]. split; [apply in_or_app; auto | exact F].
Qed.
Lemma shuts_pc : forall cl max s, k_started s = true -> k_status s = GRACEFUL -> match k_pc s with PErr _ | PForce | PShut => True | _ => False end -> shuts cl max s.
Proof.
  intros cl max [st clo sta nd co at_ de sd rd lk po pc ss] St Gr P. kproj. subst.
  assert (A : forall nd, shuts cl max (mk_k true clo GRACEFUL nd co at_ de sd rd lk po PShut ss)).
  { intro nd'. exists [KStrand true; KStrand true]. do 2 eexists. split; [intros x [<-|[<-|[]]]; exact I|]. split; [reflexivity|]. split; [left; reflexivity | reflexivity]. }
  assert (B : forall nd, shuts cl max (mk_k true clo GRACEFUL nd co at_ de sd rd lk po PForce ss)).
  { intro nd'. eapply shuts_step with (a := KStrand true); [exact I | reflexivity | apply A]. }
  destruct pc; try contradiction; try apply B; try apply A.
  eapply shuts_step with (a := KErr); [exact I | cbn; reflexivity |]. unfold kforce. destruct cl; cbn; [rewrite andb_false_r; cbn|]; apply B.
Qed.
Lemma shuts_posts : forall cl max po st clo nd co at_ de sd rd lk ss, st = true -> In RForce po -> shuts cl max (mk_k st clo GRACEFUL nd co at_ de sd rd lk po PIdle ss).
Proof.
  intros cl max; induction po as [|r po IH]; intros st clo nd co at_ de sd rd lk ss St P; [contradiction|]. subst.
  destruct r.
  - eapply shuts_step with (a := KRun); [exact I | reflexivity |]. apply shuts_pc; cbn; auto.
  - destruct P as [P|P]; [discriminate|]. eapply shuts_step with (a := KRun); [exact I | reflexivity |].
    eapply shuts_step with (a := KStrand true); [exact I | reflexivity |]. apply IH; auto.
Qed.
Lemma shuts_sd : forall cl max n st clo nd co at_ de rd lk po ss, st = true -> shuts cl max (mk_k st clo GRACEFUL nd co at_ de (SFired n) rd lk po PIdle ss).
Proof.
  intros cl max; induction n as [n IH] using lt_wf_ind; intros st clo nd co at_ de rd lk po ss St. subst.
  destruct (1 <? n)%nat eqn:L.
  - eapply shuts_step with (a := KSdGo); [exact I | cbn [kstep k_sd k_status link_eq]; rewrite L; reflexivity |]. apply Nat.ltb_lt in L.
    eapply shuts_step with (a := KSdFire); [exact I | reflexivity |]. apply IH; [lia | reflexivity].
  - eapply shuts_step with (a := KSdGo); [exact I | cbn [kstep k_sd k_status link_eq]; rewrite L; reflexivity |].
    eapply shuts_step with (a := KSdErr); [exact I | cbn; reflexivity |].
    unfold kforce. destruct cl; cbn; [rewrite andb_false_r; cbn|]; apply shuts_posts; auto; apply in_or_app; right; left; reflexivity.
Qed.

(** whatever happened before, a graceful shutdown that goes on will end in a forced one if neither the peer nor the application does
    anything *)
Theorem C36_ends : forall cl max need l s t,
  ksteps cl max (k0 need) l = Some (s, t) -> k_started s = true -> k_status s = GRACEFUL ->
  exists l' s' t', alone l' /\ ksteps cl max s l' = Some (s', t') /\ In KvShut t' /\ k_status s' = FORCE.
Proof.
  intros cl max need l s t R St Gr. change (shuts cl max s).
  pose proof (KI_steps _ _ _ _ _ _ (KI_k0 cl need) R) as [I1 I2 I3 I4 I5 I6 I7 I8 I9 I10]. pose proof (KS_steps _ _ _ _ _ _ (KI_k0 cl need) (KS_k0 need) R) as [J1 J2 J3].
  clear R. specialize (J3 St Gr).
  assert (Idle : forall s, k_started s = true -> k_status s = GRACEFUL -> k_pc s = PIdle -> sd_on s \/ In RForce (k_posts s) -> shuts cl max s).
  { clear. intros [st clo sta nd co at_ de sd rd lk po pc ss] St Gr P [Q|Q]; unfold sd_on in Q; kproj; subst.
    - destruct sd as [|n|n|w]; [contradiction | | apply shuts_sd; reflexivity |].
      + eapply shuts_step with (a := KSdFire); [exact I | reflexivity | apply shuts_sd; reflexivity].
      + eapply shuts_step with (a := KSdErr); [exact I | cbn; reflexivity |].
        unfold kforce. destruct cl; cbn; [rewrite andb_false_r; cbn|]; apply shuts_posts; auto; apply in_or_app; right; left; reflexivity.
    - apply shuts_posts; auto. }
  destruct (k_pc s) eqn:P; try (apply shuts_pc; auto; rewrite P; exact I).
  - apply Idle; auto. unfold forcing in J3. rewrite P in J3. tauto.
  - destruct use_close; [destruct (J2 eq_refl); congruence | specialize (I6 eq_refl); congruence].
  - eapply shuts_step with (a := KStrand true); [exact I | cbn; rewrite P, Gr; cbn; reflexivity |].
    apply Idle; auto. unfold forcing in J3. rewrite P in J3. unfold sd_on in *. cbn. tauto.
  - specialize (I5 eq_refl). congruence.
Qed.
Print Assumptions C36_ends.
Example C36_ends_example : exists s t,
  ksteps true 500 (k0 true) (client_run ++ [KReq true false; KRun; KStrand true; KStrand true; KSdFire; KSdGo; KReq true true]) = Some (s, t) /\ k_started s = true /\ k_status s = GRACEFUL /\ k_sd s = SArmed 499.
Proof. do 2 eexists. split; [vm_compute; reflexivity|]. repeat split. Qed.

(** * C37 *)
(** ** every attempt has a reason and the delay that goes with it *)
Fixpoint expect (e : option Z) (t : list kev) : option Z :=
  match t with
  | [] => e
  | KvStart :: t' => expect (Some 50) t'
  | KvPrepare ms :: t' => expect (if ms <? 0 then None else Some ms) t'
  | KvAttempt _ :: t' => expect None t'
  | _ :: t' => expect e t'
  end.
Lemma paced_app : forall a b e, paced e (a ++ b) = paced e a && paced (expect e a) b.
Proof. induction a as [|x a IH]; intros b e; cbn; [reflexivity|]. destruct x; cbn; auto. destruct e; cbn; [rewrite IH; now rewrite andb_assoc | reflexivity]. Qed.
Definition awaits (e : option Z) (s : kst) : Prop :=
  match k_conn s with TOff => True | TArmed _ ms | TFired _ ms => e = Some ms end /\ match k_delay s with DGo ms => e = Some ms | _ => True end.
Lemma awaits_step : forall cl max s a s' t e, KI cl s -> awaits e s -> kstep cl max s a = Some (s', t) -> paced e t = true /\ awaits (expect e t) s'.
Proof.
  intros cl max s a s' t e [I1 I2 I3 I4 I5 I6 I7 I8 I9 I10] [W1 W2] H.
  destruct s as [st clo sta nd co at_ de sd rd lk po pc ss]. unfold toks, awaits in *. kproj.
  destruct a; kdo H;
  try (match goal with E : nth_error _ _ = Some _ |- _ => pose proof (length_del_at _ _ _ _ E) end);
  rewrite ?Bool.andb_true_iff, ?Bool.andb_false_iff, ?Bool.negb_true_iff, ?Bool.negb_false_iff in *;
  repeat match goal with H : _ /\ _ |- _ => destruct H end;
  cbn [paced expect]; try (split; [reflexivity | split; assumption]); try (split; [reflexivity | auto; fail]).
  all: try (destruct (I3 ltac:(assumption) ltac:(assumption)) as [_ Z]; destruct co, de; cbn in Z; try lia; auto; fail).
  all: try (match goal with E : (_ <? 0) = _ |- _ => rewrite E end; destruct co, de; cbn in *; try lia; try congruence; auto; fail).
  all: try (destruct co, de; cbn in *; try lia; subst; auto; fail).
  all: try (rewrite Z.eqb_refl; destruct de; cbn in *; try lia; auto; fail).
  all: match goal with E : (_ <? 0) = _ |- _ => rewrite E end; destruct co; cbn in *; try lia; auto.
Qed.
Lemma awaits_steps : forall cl max l s s' t e, KI cl s -> awaits e s -> ksteps cl max s l = Some (s', t) -> paced e t = true.
Proof.
  intros cl max; induction l as [|a l IH]; intros s s' t e I W H; cbn in H; [injection H as <- <-; reflexivity|].
  destruct (kstep cl max s a) as [[s1 t1]|] eqn:E; [|discriminate]. destruct (ksteps cl max s1 l) as [[s2 t2]|] eqn:E2; [|discriminate].
  injection H as <- <-. destruct (awaits_step _ _ _ _ _ _ _ I W E) as [A B]. rewrite paced_app, A. cbn. eapply IH; [eapply KI_step; eassumption | exact B | exact E2].
Qed.
Theorem C37_paced : forall cl max need l s t, ksteps cl max (k0 need) l = Some (s, t) -> paced None t = true.
Proof. intros cl max need l s t R. eapply awaits_steps; [apply KI_k0 | | exact R]. split; exact I. Qed.
Print Assumptions C37_paced.
Example C37_paced_example : exists s t, ksteps true 500 (k0 true) (client_run ++ client_end) = Some (s, t) /\
  t = [KvAsk; KvStart; KvAttempt 50; KvPrepare 500; KvAttempt 500; KvConnect; KvShut; KvClose true; KvStart; KvAttempt 50; KvConnect; KvWish false; KvShut; KvClose false].
Proof. do 2 eexists. split; [vm_compute; reflexivity|]. reflexivity. Qed.

(** ** no attempt is made after the link was shut down *)
Definition C37_attempts_statement : Prop := forall cl max need l s t, ksteps cl max (k0 need) l = Some (s, t) -> attempts_on false t = true.
(** the timer's handler is about to connect when force_shutdown(false) closes; it connects nevertheless *)
Definition ghost : list kact :=
  [KCall; KStart; KConnFire; KReq false false; KRun; KStrand true; KStrand true; KStrand true; KConnGo true; KAttDone 0 true; KAttHandle 0].
Theorem C37_attempts_refuted : exists l s t,
  ksteps true 500 (k0 true) l = Some (s, t) /\ t = [KvAsk; KvStart; KvWish false; KvShut; KvAttempt 50; KvConnect] /\ k_status s = CONNECTED.
Proof. exists ghost. do 2 eexists. split; [vm_compute; reflexivity|]. split; reflexivity. Qed.
Print Assumptions C37_attempts_refuted.
Theorem C37_attempts_statement_refuted : ~ C37_attempts_statement.
Proof. intro C. destruct C37_attempts_refuted as (l & s & t & R & T & _). specialize (C _ _ _ _ _ _ R). rewrite T in C. discriminate. Qed.
Print Assumptions C37_attempts_statement_refuted.

(** that connection stays until the peer ends it, whatever the application does: it is never closed *)
Definition haunted (s : kst) : Prop := k_started s = false /\ k_closing s = true /\ k_link s = true /\ (1 <= k_reads s)%nat /\ toks s = 0%nat.
Lemma haunted_step : forall cl max s a s' t, haunted s -> a <> KPeer -> kstep cl max s a = Some (s', t) -> haunted s' /\ (forall b, ~ In (KvClose b) t).
Proof.
  intros cl max s a s' t (H1 & H2 & H3 & H4 & H5) N H.
  destruct s as [st clo sta nd co at_ de sd rd lk po pc ss]. unfold toks, haunted in *. kproj. subst.
  destruct a; kdo H; try congruence;
  try (match goal with E : nth_error _ _ = Some _ |- _ => pose proof (length_del_at _ _ _ _ E) end);
  rewrite ?Bool.andb_true_iff, ?Bool.andb_false_iff, ?Bool.negb_true_iff, ?Bool.negb_false_iff in *;
  repeat match goal with H : _ /\ _ |- _ => destruct H end; klists; unfold toks; kproj; klists; cbn [on_t on_d on_s on_p] in *; try lia.
  all: try (match goal with E : (kcalls _ =? 0)%nat = true |- _ => apply Nat.eqb_eq in E; unfold kcalls in E; kproj; lia end).
  all: split; [repeat split; auto; try lia | cbn; intuition congruence].
  pose proof (on_t_stop co); pose proof (on_d_stop de); lia.
Qed.
Theorem C37_ghost_refuted : exists l s t, ksteps true 500 (k0 true) l = Some (s, t) /\ wish true t = false /\ k_link s = true /\
  forall l' s' t', ksteps true 500 s l' = Some (s', t') -> ~ In KPeer l' -> k_link s' = true /\ forall b, ~ In (KvClose b) t'.
Proof.
  exists ghost. do 2 eexists. split; [vm_compute; reflexivity|]. split; [reflexivity|]. split; [reflexivity|].
  match goal with |- forall l' s' t', ksteps _ _ ?s l' = _ -> _ => assert (Hs : haunted s) by (repeat split; cbn; lia) end.
  revert Hs. match goal with |- haunted ?x -> _ => generalize x end. intros s Hs l'. revert s Hs.
  induction l' as [|a l' IH]; intros s Hs s' t' R N; cbn in R; [injection R as <- <-; split; [apply Hs | intros b []]|].
  destruct (kstep true 500 s a) as [[s1 t1]|] eqn:E; [|discriminate]. destruct (ksteps true 500 s1 l') as [[s2 t2]|] eqn:E2; [|discriminate]. injection R as <- <-.
  assert (N1 : a <> KPeer) by (intro Z; apply N; left; exact Z). assert (N2 : ~ In KPeer l') by (intro Z; apply N; right; exact Z).
  destruct (haunted_step _ _ _ _ _ _ Hs N1 E) as [H1 C1]. destruct (IH s1 H1 _ _ E2 N2) as [L2 C2]. split; [exact L2|].
  intros b Hb. apply in_app_or in Hb. destruct Hb as [Hb|Hb]; [exact (C1 b Hb) | exact (C2 b Hb)].
Qed.
Print Assumptions C37_ghost_refuted.

Fixpoint on_after (on : bool) (t : list kev) : bool := match t with [] => on | KvStart :: t' => on_after true t' | KvShut :: t' => on_after false t' | _ :: t' => on_after on t' end.
Lemma attempts_app : forall a b on, attempts_on on (a ++ b) = attempts_on on a && attempts_on (on_after on a) b.
Proof. induction a as [|x a IH]; intros b on; cbn; [reflexivity|]. destruct x; cbn; auto. rewrite IH. now rewrite andb_assoc. Qed.
Lemma attempts_step : forall cl max s a s' t, KI cl s -> KC s -> kstep cl max s a = Some (s', t) ->
  attempts_on (k_started s) t = true /\ on_after (k_started s) t = k_started s'.
Proof.
  intros cl max s a s' t [I1 I2 I3 I4 I5 I6 I7 I8 I9 I10] [J1 J2 J3] H.
  destruct s as [st clo sta nd co at_ de sd rd lk po pc ss]. unfold toks in *. kproj.
  destruct a; kdo H; cbn [attempts_on on_after]; auto.
  destruct st; auto. specialize (J1 eq_refl). cbn in J1. lia.
Qed.
Lemma attempts_steps : forall cl max l s s' t, KI cl s -> KC s -> kcalms cl max s l = true -> ksteps cl max s l = Some (s', t) -> attempts_on (k_started s) t = true.
Proof.
  intros cl max; induction l as [|a l IH]; intros s s' t I J C H; cbn in H, C; [injection H as <- <-; reflexivity|].
  apply andb_true_iff in C. destruct C as [C1 C2].
  destruct (kstep cl max s a) as [[s1 t1]|] eqn:E; [|discriminate]. destruct (ksteps cl max s1 l) as [[s2 t2]|] eqn:E2; [|discriminate].
  injection H as <- <-. destruct (attempts_step _ _ _ _ _ _ I J E) as [A B]. rewrite attempts_app, A, B. cbn.
  eapply IH; [eapply KI_step; eassumption | eapply KC_step; eassumption | exact C2 | exact E2].
Qed.
(** In every execution a link that was started is shut down at most once, its closing is told once after that, and it is not started
    again before; the same for every following life. *)
Definition phase (s : kst) : life := if k_started s then On else if k_closing s then Ending else Off.
Lemma lives_step : forall cl max s a s' t, (k_started s = true -> k_closing s = false) -> kstep cl max s a = Some (s', t) ->
  fold_left life_step t (Some (phase s)) = Some (phase s') /\ (k_started s' = true -> k_closing s' = false).
Proof.
  intros cl max s a s' t I H. destruct s as [st clo sta nd co at_ de sd rd lk po pc ss]. unfold phase in *. kproj.
  destruct st, clo; try (discriminate (I eq_refl)); destruct a; kdo H; cbn in *; try discriminate; (split; [reflexivity|intros; congruence]).
Qed.
Theorem C37_lives : forall cl max need l s t, ksteps cl max (k0 need) l = Some (s, t) -> exists p, lives t = Some p.
Proof.
  intros cl max need l s t H. exists (phase s). unfold lives. change (Some Off) with (Some (phase (k0 need))).
  assert (I : k_started (k0 need) = true -> k_closing (k0 need) = false) by discriminate. revert I H. generalize (k0 need). intros s0. revert s0 s t.
  induction l as [|a l IH]; intros s0 s t I H; cbn in H; [injection H as <- <-; reflexivity|].
  destruct (kstep cl max s0 a) as [[s1 t1]|] eqn:E; [|discriminate]. destruct (ksteps cl max s1 l) as [[s2 t2]|] eqn:E2; [|discriminate].
  injection H as <- <-. destruct (lives_step _ _ _ _ _ _ I E) as [A B]. rewrite fold_left_app, A. exact (IH _ _ _ B E2).
Qed.
Print Assumptions C37_lives.
Example C37_lives_example : exists s t, ksteps true 500 (k0 true) (client_run ++ client_end) = Some (s, t) /\ lives t = Some Off /\ In KvShut t.
Proof. do 2 eexists. split; [vm_compute; reflexivity|]. split; [reflexivity|cbn; tauto]. Qed.

(** In every execution the application is asked how long to wait only while the client is started. *)
Lemma prepares_app : forall a b on, prepares_on on (a ++ b) = prepares_on on a && prepares_on (on_after on a) b.
Proof. induction a as [|x a IH]; intros b on; cbn; [reflexivity|]. destruct x; cbn; auto. rewrite IH. now rewrite andb_assoc. Qed.
Lemma prepares_step : forall cl max s a s' t, kstep cl max s a = Some (s', t) -> prepares_on (k_started s) t = true /\ on_after (k_started s) t = k_started s'.
Proof.
  intros cl max s a s' t H. destruct s as [st clo sta nd co at_ de sd rd lk po pc ss]. kproj.
  destruct a; kdo H; cbn [prepares_on on_after]; auto;
  match goal with E : _ && st = true |- _ => apply andb_true_iff in E as [_ ->]; auto end.
Qed.
Theorem C37_prepared : forall cl max need l s t, ksteps cl max (k0 need) l = Some (s, t) -> prepares_on false t = true.
Proof.
  intros cl max need l s t. change false with (k_started (k0 need)). generalize (k0 need). intros s0. revert s0 s t.
  induction l as [|a l IH]; intros s0 s t H; cbn in H; [injection H as <- <-; reflexivity|].
  destruct (kstep cl max s0 a) as [[s1 t1]|] eqn:E; [|discriminate]. destruct (ksteps cl max s1 l) as [[s2 t2]|] eqn:E2; [|discriminate].
  injection H as <- <-. destruct (prepares_step _ _ _ _ _ _ E) as [A B]. rewrite prepares_app, A, B. cbn. eapply IH; exact E2.
Qed.
Print Assumptions C37_prepared.
(** client_run prepares once (C37_paced_example) *)
(** C37_attempts_statement holds if no link is closed while an attempt is under way; missing: that case, where it is false *)
Theorem C37_attempts_partial : forall cl max need l s t,
  ksteps cl max (k0 need) l = Some (s, t) -> kcalms cl max (k0 need) l = true -> attempts_on false t = true.
Proof. intros cl max need l s t R C. exact (attempts_steps _ _ _ _ _ _ (KI_k0 cl need) (KC_k0 need) C R). Qed.
Print Assumptions C37_attempts_partial.
Example C37_attempts_example : exists s t,
  ksteps true 500 (k0 true) (client_run ++ client_end) = Some (s, t) /\ kcalms true 500 (k0 true) (client_run ++ client_end) = true.
Proof. do 2 eexists. split; [vm_compute; reflexivity|]. vm_compute; reflexivity. Qed.

(** ** after closing, the link is started again exactly when that was wished last *)
Definition C37_wish_statement : Prop := forall max need l s t, ksteps true max (k0 need) l = Some (s, t) -> obeyed need t = true.
(** on_recv_error has read need_reconnect for its force_shutdown(need_reconnect) when the application calls force_shutdown(false) *)
Definition lost_wish : list kact :=
  [KCall; KStart; KConnFire; KConnGo true; KAttDone 0 true; KAttHandle 0; KPeer; KReq false false; KErr; KStrand true; KStrand true; KStrand true; KRun; KStrand true; KOnClose; KStart; KConnFire; KConnGo true].
Theorem C37_wish_refuted : exists l s t, ksteps true 500 (k0 true) l = Some (s, t) /\
  t = [KvAsk; KvStart; KvAttempt 50; KvConnect; KvWish false; KvShut; KvClose true; KvStart; KvAttempt 50].
Proof. exists lost_wish. do 2 eexists. split; [vm_compute; reflexivity|]. reflexivity. Qed.
Print Assumptions C37_wish_refuted.
Theorem C37_wish_statement_refuted : ~ C37_wish_statement.
Proof. intro C. destruct C37_wish_refuted as (l & s & t & R & T). specialize (C _ _ _ _ _ R). rewrite T in C. discriminate. Qed.
Print Assumptions C37_wish_statement_refuted.

(** excluded: a wish that comes while the library's own force_shutdown(need_reconnect) has read a different one *)
Definition kmeek (s : kst) (a : kact) : bool :=
  let ok b := match k_pc s with PErr w => Bool.eqb w b | _ => true end && match k_sd s with SErr w => Bool.eqb w b | _ => true end in
  match a with KReq _ b | KNeed b => ok b | KDelayGo ms => if ms <? 0 then ok false else true | _ => true end.
Fixpoint kmeeks (max : nat) (s : kst) (l : list kact) : bool :=
  match l with [] => true | a :: l' => kmeek s a && match kstep true max s a with Some (s1, _) => kmeeks max s1 l' | None => true end end.
Definition KW (s : kst) : Prop := match k_pc s with PErr w => w = k_need s | _ => True end /\ match k_sd s with SErr w => w = k_need s | _ => True end.
Lemma obeyed_app : forall a b w, obeyed w (a ++ b) = obeyed w a && obeyed (wish w a) b.
Proof. induction a as [|x a IH]; intros b w; cbn; [reflexivity|]. destruct x; cbn; auto. rewrite IH. now rewrite andb_assoc. Qed.
Lemma KW_step : forall max s a s' t, KW s -> kmeek s a = true -> kstep true max s a = Some (s', t) -> KW s' /\ obeyed (k_need s) t = true /\ wish (k_need s) t = k_need s'.
Proof.
  intros max s a s' t [W1 W2] M H.
  destruct s as [st clo sta nd co at_ de sd rd lk po pc ss]. unfold KW, kmeek in *. kproj.
  destruct a; kdo H; cbn [obeyed wish]; rewrite ?eqb_reflx; cbn [andb].
  all: repeat match goal with E : (_ <? 0) = _ |- _ => rewrite E in M end.
  all: try (apply andb_true_iff in M; destruct M as [M1 M2]).
  all: repeat split; auto; try (destruct pc; try exact I; apply eqb_prop in M1; congruence); try (destruct sd; try exact I; apply eqb_prop in M2; congruence); try congruence.
  all: try (destruct sd; cbn; auto).
Qed.
(** C37_wish_statement without this coincidence; missing: that case, where it is false *)
Theorem C37_wish_partial : forall max need l s t,
  ksteps true max (k0 need) l = Some (s, t) -> kmeeks max (k0 need) l = true -> obeyed need t = true.
Proof.
  intros max need l s t R M. assert (G : forall l s s' t, KW s -> kmeeks max s l = true -> ksteps true max s l = Some (s', t) -> obeyed (k_need s) t = true).
  { clear. induction l as [|a l IH]; intros s s' t W C H; cbn in H, C; [injection H as <- <-; reflexivity|].
    apply andb_true_iff in C. destruct C as [C1 C2].
    destruct (kstep true max s a) as [[s1 t1]|] eqn:E; [|discriminate]. destruct (ksteps true max s1 l) as [[s2 t2]|] eqn:E2; [|discriminate].
    injection H as <- <-. destruct (KW_step _ _ _ _ _ W C1 E) as (W1 & A & B). rewrite obeyed_app, A, B. cbn. eapply IH; eassumption. }
  apply (G l (k0 need) s t); auto. split; exact I.
Qed.
Print Assumptions C37_wish_partial.
Example C37_wish_example : exists s t, ksteps true 500 (k0 true) (client_run ++ client_end) = Some (s, t) /\ kmeeks 500 (k0 true) (client_run ++ client_end) = true.
Proof. do 2 eexists. split; [vm_compute; reflexivity|]. vm_compute; reflexivity. Qed.

(** ** a client that was closed without reconnecting stays so until the application asks *)
Definition KQ (s : kst) : Prop := k_started s = false /\ k_closing s = false /\ k_need s = false /\ k_starts s = 0%nat.
Lemma KQ_step : forall max s a s' t, KI true s -> KQ s -> unasked t -> kstep true max s a = Some (s', t) -> KQ s' /\ silent t.
Proof.
  intros max s a s' t [I1 I2 I3 I4 I5 I6 I7 I8 I9 I10] (Q1 & Q2 & Q3 & Q4) U H.
  destruct s as [st clo sta nd co at_ de sd rd lk po pc ss]. unfold toks, KQ, silent, unasked in *. kproj. subst.
  destruct (I3 eq_refl eq_refl) as [-> Z].
  destruct a; kdo H; try discriminate; try (cbn in Z; lia);
  try (match goal with E : nth_error _ _ = Some _ |- _ => pose proof (length_del_at _ _ _ _ E); cbn in *; lia end).
  all: try (specialize (U _ (or_introl eq_refl)); cbn in U; subst; try contradiction); try discriminate.
  all: try (split; [repeat split; reflexivity | cbn; intros e [<-|[]]; exact I]); try (split; [repeat split; reflexivity | intros e []]).
  all: try (exfalso; eapply I9; reflexivity). all: try (exfalso; eapply I10; reflexivity).
Qed.
Theorem C37_silent : forall max need l1 s1 t1 l2 s2 t2,
  ksteps true max (k0 need) l1 = Some (s1, t1) -> k_started s1 = false -> k_closing s1 = false -> k_need s1 = false -> k_starts s1 = 0%nat ->
  ksteps true max s1 l2 = Some (s2, t2) -> unasked t2 -> silent t2.
Proof.
  intros max need l1 s1 t1 l2 s2 t2 R1 A B C D R2 U.
  pose proof (KI_steps _ _ _ _ _ _ (KI_k0 true need) R1) as I. assert (Q : KQ s1) by (repeat split; assumption). clear R1 A B C D.
  revert s1 s2 t2 I Q R2 U. induction l2 as [|a l2 IH]; intros s1 s2 t2 I Q R2 U; cbn in R2; [injection R2 as <- <-; intros e []|].
  destruct (kstep true max s1 a) as [[s3 t3]|] eqn:E; [|discriminate]. destruct (ksteps true max s3 l2) as [[s4 t4]|] eqn:E4; [|discriminate]. injection R2 as <- <-.
  destruct (KQ_step max s1 a s3 t3 I Q) as [Q3 S3]; [intros e He; apply U; apply in_or_app; auto | exact E |].
  assert (S4 : silent t4) by (eapply IH; [eapply KI_step; eassumption | exact Q3 | exact E4 | intros e He; apply U; apply in_or_app; auto]).
  intros e He. apply in_app_or in He. destruct He; [apply S3 | apply S4]; assumption.
Qed.
Print Assumptions C37_silent.
(** client_run ++ client_end ends like that; a further forced shutdown, and one that does not ask for reconnecting *)
Example C37_silent_example : exists s1 t1 s2 t2, ksteps true 500 (k0 true) (client_run ++ client_end) = Some (s1, t1) /\
  k_started s1 = false /\ k_closing s1 = false /\ k_need s1 = false /\ k_starts s1 = 0%nat /\
  ksteps true 500 s1 [KReq false false; KNeed false; KRun; KStrand true; KStrand true; KStrand true] = Some (s2, t2) /\ t2 = [KvWish false; KvWish false].
Proof. do 4 eexists. split; [vm_compute; reflexivity|]. do 4 (split; [reflexivity|]). split; [vm_compute; reflexivity | reflexivity]. Qed.

(** ** a client that wants a link keeps trying *)
Definition C37_trying_statement : Prop := forall max need l s t,
  ksteps true max (k0 need) l = Some (s, t) -> k_started s = true -> k_status s = BROKEN ->
  exists l' s' t', alone l' /\ ksteps true max s l' = Some (s', t') /\ ((exists ms, In (KvAttempt ms) t') \/ In KvConnect t' \/ In KvShut t').

(** bind() fails before an attempt to reconnect: the client remains started, and nothing happens any more *)
Definition unbound : list kact := [KCall; KStart; KConnFire; KConnGo true; KAttDone 0 false; KAttHandle 0; KDelayFire; KDelayGo 500; KDelaySet; KConnFire; KConnGo false].
Theorem C37_bind_refuted : exists l s t, ksteps true 500 (k0 true) l = Some (s, t) /\ t = [KvAsk; KvStart; KvAttempt 50; KvPrepare 500] /\
  k_started s = true /\ k_need s = true /\ k_status s = BROKEN /\ forall l' s' t', alone l' -> ksteps true 500 s l' = Some (s', t') -> l' = [].
Proof.
  exists unbound. do 2 eexists. split; [vm_compute; reflexivity|]. do 4 (split; [reflexivity|]).
  intros [|a l'] s' t' A R; [reflexivity|]. exfalso. specialize (A a (or_introl eq_refl)). destruct a; try contradiction; cbn in R; try discriminate; destruct i; discriminate.
Qed.
Print Assumptions C37_bind_refuted.
Theorem C37_trying_statement_refuted : ~ C37_trying_statement.
Proof.
  intro C. destruct C37_bind_refuted as (l & s & t & R & _ & St & _ & Br & Dead). destruct (C _ _ _ _ _ R St Br) as (l' & s' & t' & A & R' & X).
  pose proof (Dead _ _ _ A R') as ->. cbn in R'. injection R' as <- <-. destruct X as [[ms []]|[[]|[]]].
Qed.
Print Assumptions C37_trying_statement_refuted.

(** bind() never fails in a run *)
Definition binds (l : list kact) : Prop := ~ In (KConnGo false) l.
Definition KT (s : kst) : Prop := k_started s = true -> k_status s = BROKEN -> toks s = 1%nat \/ k_posts s <> [] \/ k_pc s <> PIdle.
Lemma app1_ne : forall (A : Type) (l : list A) x, l ++ [x] <> [].
Proof. intros A [|y l] x; discriminate. Qed.
Lemma KT_step : forall max s a s' t, KI true s -> KT s -> a <> KConnGo false -> kstep true max s a = Some (s', t) -> KT s'.
Proof.
  intros max s a s' t [I1 I2 I3 I4 I5 I6 I7 I8 I9 I10] T B H.
  destruct s as [st clo sta nd co at_ de sd rd lk po pc ss]. unfold KT, toks in *. kproj.
  destruct a; kdo H; 
  try (match goal with E : nth_error _ _ = Some _ |- _ => pose proof (length_del_at _ _ _ _ E) end);
  rewrite ?Bool.andb_true_iff, ?Bool.andb_false_iff, ?Bool.negb_true_iff, ?Bool.negb_false_iff in *;
  repeat match goal with H : _ /\ _ |- _ => destruct H end;
  repeat match goal with H : link_eq _ _ = true |- _ => apply link_eq_spec in H; subst end;
  klists; cbn [on_t on_d on_s on_p] in *; unfold toks; kproj; klists; cbn [on_t on_d]; intros S1 S2; subst; try discriminate; try (right; left; apply app1_ne); try (right; right; discriminate); auto.
  all: try (destruct (T eq_refl eq_refl) as [X|[X|X]]; auto; left; lia).
  all: try (destruct (I3 ltac:(assumption) ltac:(assumption)); left; lia).
  all: try (match goal with E : link_eq BROKEN _ = _ |- _ => discriminate E end).
  all: try (destruct (I3 eq_refl eq_refl); left; lia).
  all: specialize (I4 eq_refl); congruence.
Qed.
Lemma KT_steps : forall max l s s' t, KI true s -> KT s -> binds l -> ksteps true max s l = Some (s', t) -> KT s'.
Proof.
  intros max; induction l as [|a l IH]; intros s s' t I J B H; cbn in H; [injection H as <- <-; exact J|].
  destruct (kstep true max s a) as [[s1 t1]|] eqn:E; [|discriminate]. destruct (ksteps true max s1 l) as [[s2 t2]|] eqn:E2; [|discriminate].
  injection H as <- <-. assert (N : a <> KConnGo false) by (intro Z; apply B; left; exact Z). assert (B' : binds l) by (intro Z; apply B; right; exact Z).
  eapply IH; [eapply KI_step; eassumption | eapply KT_step; eassumption | exact B' | eassumption].
Qed.

Definition moves max s : Prop := exists l' s' t', alone l' /\ ksteps true max s l' = Some (s', t') /\ ((exists ms, In (KvAttempt ms) t') \/ In KvConnect t' \/ In KvShut t').
Lemma moves_step : forall max s a s1 t1, match a with KReq _ _ | KNeed _ | KCall | KPeer => False | _ => True end ->
  kstep true max s a = Some (s1, t1) -> moves max s1 -> moves max s.
Proof.
  intros max s a s1 t1 A E (l & s' & t & B & R & X). exists (a :: l), s', (t1 ++ t). split; [intros x [<-|Hx]; [exact A | exact (B x Hx)]|].
  cbn [ksteps]. rewrite E, R. split; [reflexivity|]. destruct X as [[ms X]|[X|X]]; [left; exists ms | right; left | right; right]; apply in_or_app; auto.
Qed.
Lemma moves_now : forall max s a s1 t1, match a with KReq _ _ | KNeed _ | KCall | KPeer => False | _ => True end ->
  kstep true max s a = Some (s1, t1) -> ((exists ms, In (KvAttempt ms) t1) \/ In KvConnect t1 \/ In KvShut t1) -> moves max s.
Proof. intros max s a s1 t1 A E X. exists [a], s1, t1. split; [intros x [<-|[]]; exact A|]. cbn. rewrite E, app_nil_r. auto. Qed.
Lemma moves_pc : forall max clo nd co at_ de sd rd lk po pc ss, pc <> PIdle -> pc <> PGrace2 -> (forall w, pc <> PErr w) -> moves max (mk_k true clo BROKEN nd co at_ de sd rd lk po pc ss).
Proof.
  intros max clo nd co at_ de sd rd lk po pc ss N1 N2 N3.
  assert (A : forall u, moves max (mk_k true clo BROKEN nd co at_ de sd rd lk po (PClose u) ss)).
  { intro u. eapply moves_now with (a := KStrand true); [exact I | reflexivity | right; right; left; reflexivity]. }
  assert (B : moves max (mk_k true clo BROKEN nd co at_ de sd rd lk po PShut ss)).
  { eapply moves_step with (a := KStrand true); [exact I | reflexivity | apply A]. }
  destruct pc; try congruence; auto; try (exfalso; eapply N3; reflexivity); (eapply moves_step with (a := KStrand true); [exact I | reflexivity | exact B]).
Qed.
Lemma moves_posts : forall max clo nd co at_ de sd rd lk po ss, po <> [] -> moves max (mk_k true clo BROKEN nd co at_ de sd rd lk po PIdle ss).
Proof.
  intros max clo nd co at_ de sd rd lk [|r po] ss N; [congruence|]. eapply moves_step with (a := KRun); [exact I | reflexivity |].
  unfold set_posts, set_pc; cbn. apply moves_pc; destruct r; congruence.
Qed.
Lemma moves_delay : forall max clo nd sd rd lk po pc ss, pc = PIdle -> moves max (mk_k true clo BROKEN nd TOff [] DArmed sd rd lk po pc ss).
Proof.
  intros max clo nd sd rd lk po pc ss ->. eapply moves_step with (a := KDelayFire); [exact I | reflexivity |]. destruct nd.
  - eapply moves_step with (a := KDelayGo 500); [exact I | reflexivity |]. eapply moves_step with (a := KDelaySet); [exact I | reflexivity |].
    eapply moves_step with (a := KConnFire); [exact I | reflexivity |]. eapply moves_now with (a := KConnGo true); [exact I | reflexivity | left; eexists; left; reflexivity].
  - eapply moves_step with (a := KDelayGo 500); [exact I | reflexivity |]. apply moves_posts. apply app1_ne.
Qed.

(** C37_trying_statement if bind() does not fail; missing: that case, where it is false *)
Theorem C37_trying_partial : forall max need l s t,
  ksteps true max (k0 need) l = Some (s, t) -> binds l -> k_started s = true -> k_status s = BROKEN ->
  exists l' s' t', alone l' /\ ksteps true max s l' = Some (s', t') /\ ((exists ms, In (KvAttempt ms) t') \/ In KvConnect t' \/ In KvShut t').
Proof.
  intros max need l s t R B St Br. change (moves max s).
  pose proof (KI_steps _ _ _ _ _ _ (KI_k0 true need) R) as [I1 I2 I3 I4 I5 I6 I7 I8 I9 I10].
  assert (T : KT s) by (eapply KT_steps; [apply KI_k0 | | exact B | exact R]; discriminate).
  specialize (T St Br). clear R B. destruct s as [st clo sta nd co at_ de sd rd lk po pc ss]. unfold toks in *. kproj. subst.
  assert (P : pc = PIdle \/ pc <> PIdle) by (destruct pc; auto; right; discriminate). destruct P as [->|P].
  2: { apply moves_pc; [exact P | intros ->; discriminate (I5 eq_refl) | intros w ->; exact (I9 w eq_refl eq_refl)]. }
  destruct po as [|r po]; [|apply moves_posts; discriminate]. destruct T as [T|[T|T]]; try congruence.
  destruct co as [|f ms|f ms].
  - destruct at_ as [|a [|? ?]]; cbn in T; [| |lia].
    + destruct de; cbn in T; try lia.
      * apply moves_delay; reflexivity.
      * destruct nd.
        -- eapply moves_step with (a := KDelayGo 500); [exact I | reflexivity |]. eapply moves_step with (a := KDelaySet); [exact I | reflexivity |].
           eapply moves_step with (a := KConnFire); [exact I | reflexivity |]. eapply moves_now with (a := KConnGo true); [exact I | reflexivity | left; eexists; left; reflexivity].
        -- eapply moves_step with (a := KDelayGo 500); [exact I | reflexivity |]. apply moves_posts. apply app1_ne.
      * eapply moves_step with (a := KDelaySet); [exact I | reflexivity |]. eapply moves_step with (a := KConnFire); [exact I | reflexivity |].
        eapply moves_now with (a := KConnGo true); [exact I | reflexivity | left; eexists; left; reflexivity].
    + destruct de; cbn in T; try lia. destruct a.
      * eapply moves_step with (a := KAttDone 0 false); [exact I | reflexivity |]. eapply moves_step with (a := KAttHandle 0); [exact I | reflexivity |]. apply moves_delay; reflexivity.
      * eapply moves_now with (a := KAttHandle 0); [exact I | reflexivity | right; left; left; reflexivity].
      * eapply moves_now with (a := KAttHandle 0); [exact I | reflexivity | right; left; left; reflexivity].
      * eapply moves_step with (a := KAttHandle 0); [exact I | reflexivity |]. apply moves_delay; reflexivity.
  - eapply moves_step with (a := KConnFire); [exact I | reflexivity |]. eapply moves_now with (a := KConnGo true); [exact I | cbn; rewrite andb_false_r; reflexivity | left; eexists; left; reflexivity].
  - eapply moves_now with (a := KConnGo true); [exact I | cbn; rewrite andb_false_r; reflexivity | left; eexists; left; reflexivity].
Qed.
Print Assumptions C37_trying_partial.
(** an attempt has failed *)
Example C37_trying_example : exists s t, ksteps true 500 (k0 true) [KCall; KStart; KConnFire; KConnGo true; KAttDone 0 false; KAttHandle 0] = Some (s, t) /\
  binds [KCall; KStart; KConnFire; KConnGo true; KAttDone 0 false; KAttHandle 0] /\ k_started s = true /\ k_status s = BROKEN.
Proof. do 2 eexists. split; [vm_compute; reflexivity|]. split; [unfold binds; cbn; intuition congruence | split; reflexivity]. Qed.
