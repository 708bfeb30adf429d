(** C38: time goes on for a link that is up, so the bounds of P_Heart are not met by a link that stands still: a silent peer's link ends. *)
From Coq Require Import List ZArith Bool Lia ZifyBool.
From Verif Require Import M_Heart P_Heart.
Import ListNotations.
Open Scope Z_scope.

(** what the link does by itself: its timer, its writes. Nobody sends, receives, shuts down or sets the clock. *)
Definition alone (l : list (Z * hin)) : Prop := forall x, In x l -> snd x = HCheck \/ snd x = HSent \/ snd x = HTick.

Record TI (c : hcfg) (s : hst) : Prop := mk_TI {
  ti_due : h_t s <= h_due s + hc_late c; ti_next : h_due s <= h_t s + hc_int c * 1000;
  ti_busy : forall b, h_busy s = Some b -> h_t s <= b + hc_slow c
}.
Lemma TI_step c s x s' tr : hc_ok c -> TI c s -> hstep c s x = Some (s', tr) -> TI c s'.
Proof.
  intros (C1 & C2 & C3 & C4 & _) [I1 I2 I3] S. destruct x as [t e]. cbn [hstep] in S. destruct (h_ready s) eqn:RD; [|discriminate S]. cbn [andb] in S. destruct (h_t s <=? t) eqn:T1; [|discriminate S]. destruct (t <=? h_due s + hc_late c) eqn:T2; [|discriminate S]. cbn [andb] in S. destruct (match h_busy s with Some b => t <=? b + hc_slow c | None => true end) eqn:T3; [|discriminate S].
  assert (B : forall b, h_busy s = Some b -> t <= b + hc_slow c) by (intros b Q; rewrite Q in T3; lia).
  destruct e; try (inversion S; subst; clear S; constructor; cbn [h_ready h_t h_due h_busy]; [lia|lia|exact B]).
  - destruct (h_busy s) eqn:BU; [discriminate S|]. inversion S; subst; clear S. constructor; cbn [h_ready h_t h_due h_busy]; [lia|lia|]. intros b Q. inversion Q; subst. lia.
  - destruct (h_busy s) eqn:BU; [|discriminate S]. inversion S; subst; clear S. constructor; cbn [h_ready h_t h_due h_busy]; [lia|lia|discriminate].
  - destruct (h_due s <=? t) eqn:T4; [|discriminate S]. injection S as S. unfold check in S. rewrite RD in S. destruct ((0 <? h_recv s) && true); [|inversion S; subst; clear S; constructor; cbn [h_ready h_t h_due h_busy]; [lia|lia|exact B]].
    destruct (hc_int c * hc_max c <=? _); [inversion S; subst; clear S; constructor; cbn [h_ready h_t h_due h_busy]; [lia|lia|exact B]|].
    destruct (h_busy s) as [b0|] eqn:BU; [inversion S; subst; clear S; constructor; cbn [h_ready h_t h_due h_busy]; [lia|lia|exact B]|].
    destruct (hc_int c <=? _); inversion S; subst; clear S; (constructor; cbn [h_ready h_t h_due h_busy]; [lia|lia|]); [|discriminate]. intros b Q. inversion Q; subst. lia.
Qed.
Lemma TI_steps c l : forall s s' tr, hc_ok c -> TI c s -> hsteps c s l = Some (s', tr) -> TI c s'.
Proof.
  induction l as [|x l IH]; intros s s' tr OK I S; cbn [hsteps] in S; [inversion S; subst; exact I|]. destruct (hstep c s x) as [[s1 t1]|] eqn:E; [|discriminate S]. destruct (hsteps c s1 l) as [[s2 t2]|] eqn:E2; [|discriminate S]. inversion S; subst. exact (IH _ _ _ OK (TI_step _ _ _ _ _ OK I E) E2).
Qed.
Lemma TI_init c t0 off : hc_ok c -> TI c (h0 c t0 off).
Proof. intros (C1 & C2 & C3 & C4 & _). constructor; cbn; [lia|lia|discriminate]. Qed.

(** the write in progress, if any, completes *)
Lemma flush c s : hc_ok c -> TI c s -> h_ready s = true -> exists l s' tr, hsteps c s l = Some (s', tr) /\ alone l /\ h_ready s' = true /\ h_busy s' = None /\ h_t s' = h_t s /\ h_due s' = h_due s.
Proof.
  intros OK [D N B] R. destruct (h_busy s) as [b|] eqn:BU; [|exists [], s, []; repeat apply conj; try reflexivity; try assumption; intros x []]. specialize (B b eq_refl).
  exists [(h_t s, HSent)]. cbn [hsteps hstep]. rewrite R, BU. replace (h_t s <=? h_t s) with true by lia. replace (h_t s <=? h_due s + hc_late c) with true by lia. replace (h_t s <=? b + hc_slow c) with true by lia. cbn [andb]. do 2 eexists. split; [reflexivity|]. cbn [h_ready h_busy h_t h_due]. split; [|repeat apply conj; reflexivity]. intros x [<-|[]]. cbn. tauto.
Qed.
(** and the timer expires *)
Lemma expire c s : hc_ok c -> TI c s -> h_ready s = true -> h_busy s = None -> exists s' tr, hstep c s (Z.max (h_t s) (h_due s), HCheck) = Some (s', tr) /\ h_t s' = Z.max (h_t s) (h_due s) /\ (h_ready s' = true -> h_due s' = h_t s' + hc_int c * 1000).
Proof.
  intros (C1 & C2 & C3 & C4 & _) [D N B] R BU. cbn [hstep]. rewrite R, BU. set (t := Z.max (h_t s) (h_due s)). replace (h_t s <=? t) with true by lia. replace (t <=? h_due s + hc_late c) with true by lia. cbn [andb]. replace (h_due s <=? t) with true by lia. unfold check. rewrite R, BU.
  destruct ((0 <? h_recv s) && true); [|do 2 eexists; split; [reflexivity|]; cbn [h_t h_ready h_due]; auto].
  destruct (hc_int c * hc_max c <=? _); [do 2 eexists; split; [reflexivity|]; cbn [h_t h_ready h_due]; split; [reflexivity|discriminate]|].
  destruct (hc_int c <=? _); do 2 eexists; (split; [reflexivity|]); cbn [h_t h_ready h_due]; auto.
Qed.
Lemma alone_app l l' : alone l -> alone l' -> alone (l ++ l').
Proof. intros A B x H. apply in_app_or in H as [H|H]; auto. Qed.
Lemma tour c s : hc_ok c -> TI c s -> h_ready s = true -> exists l s' tr, hsteps c s l = Some (s', tr) /\ alone l /\ TI c s' /\ (h_ready s' = true -> h_due s <= h_t s' /\ h_due s' = h_t s' + hc_int c * 1000).
Proof.
  intros OK I R. destruct (flush c s OK I R) as (l1 & s1 & t1 & S1 & A1 & R1 & B1 & T1 & D1). pose proof (TI_steps _ _ _ _ _ OK I S1) as I1. destruct (expire c s1 OK I1 R1 B1) as (s2 & t2 & S2 & T2 & D2).
  exists (l1 ++ [(Z.max (h_t s1) (h_due s1), HCheck)]), s2, (t1 ++ (t2 ++ [])). split; [rewrite hsteps_app, S1; cbn [hsteps]; rewrite S2; reflexivity|]. split; [apply alone_app; [exact A1|]; intros x [<-|[]]; cbn; tauto|]. split; [exact (TI_step _ _ _ _ _ OK I1 S2)|]. intros R2. split; [lia|exact (D2 R2)].
Qed.
Lemma tours c n : forall s, hc_ok c -> TI c s -> h_ready s = true -> exists l s' tr, hsteps c s l = Some (s', tr) /\ alone l /\ TI c s' /\ (h_ready s' = true -> h_due s + Z.of_nat n * (hc_int c * 1000) <= h_due s').
Proof.
  induction n as [|n IH]; intros s OK I R; [exists [], s, []; split; [reflexivity|]; split; [intros x []|]; split; [exact I|lia]|].
  destruct (tour c s OK I R) as (l1 & s1 & t1 & S1 & A1 & I1 & G1). destruct (h_ready s1) eqn:R1; [|exists l1, s1, t1; split; [exact S1|]; split; [exact A1|]; split; [exact I1|]; intros Q; rewrite R1 in Q; discriminate Q].
  destruct (G1 eq_refl) as (G2 & G3). destruct (IH s1 OK I1 R1) as (l2 & s2 & t2 & S2 & A2 & I2 & G4). exists (l1 ++ l2), s2, (t1 ++ t2). split; [rewrite hsteps_app, S1, S2; reflexivity|]. split; [apply alone_app; assumption|]. split; [exact I2|]. intros Q. specialize (G4 Q). lia.
Qed.
Lemma alone_steady l : alone l -> steady l.
Proof. intros A t z H. destruct (A _ H) as [Q|[Q|Q]]; discriminate Q. Qed.

(** Whatever happened so far, also with the clock being set: a link that is up can go on by itself as long as one likes, or until it is dropped. *)
Theorem C38_goes_on c t0 off l s tr T : hc_ok c -> hsteps c (h0 c t0 off) l = Some (s, tr) -> h_ready s = true ->
  exists l' s' tr', hsteps c s l' = Some (s', tr') /\ alone l' /\ (h_ready s' = true -> T <= h_t s').
Proof.
  intros OK S R. pose proof (TI_steps _ _ _ _ _ OK (TI_init c t0 off OK) S) as I. destruct (tours c (Z.to_nat (Z.max 0 (T - h_due s) + 1)) s OK I R) as (l' & s' & tr' & S' & A & I' & G). exists l', s', tr'. split; [exact S'|]. split; [exact A|]. intros Q. specialize (G Q). pose proof (ti_next _ _ I') as N. destruct OK as (C1 & _). rewrite Z2Nat.id in G by lia. nia.
Qed.
Print Assumptions C38_goes_on.

Lemma alone_step c s t e s' tr : e = HCheck \/ e = HSent \/ e = HTick -> hstep c s (t, e) = Some (s', tr) -> (forall r, ~ In (r, ORecv) tr) /\ (h_ready s' = false -> In (t, ODrop) tr).
Proof.
  intros A S. cbn [hstep] in S. destruct (h_ready s) eqn:RD; [|discriminate S]. cbn [andb] in S. destruct (_ && _ && _); [|discriminate S]. destruct A as [ -> | [ -> | -> ]].
  - destruct (h_due s <=? t); [|discriminate S]. injection S as S. unfold check in S. rewrite RD in S. destruct ((0 <? h_recv s) && true); [|inversion S; subst; split; [intros r []|discriminate]]. destruct (hc_int c * hc_max c <=? _); [inversion S; subst; split; [intros r [Q|[]]; discriminate Q|intros _; left; reflexivity]|].
    destruct (h_busy s); [inversion S; subst; split; [intros r []|discriminate]|]. destruct (hc_int c <=? _); inversion S; subst; (split; [|discriminate]); [intros r [Q|[]]; discriminate Q|intros r []].
  - destruct (h_busy s); [|discriminate S]. inversion S; subst. cbn [h_ready]. split; [intros r [Q|[]]; discriminate Q|discriminate].
  - inversion S; subst. cbn [h_ready]. split; [intros r []|discriminate].
Qed.
Lemma alone_steps c l : forall s s' tr, alone l -> hsteps c s l = Some (s', tr) -> (forall r, ~ In (r, ORecv) tr) /\ (h_ready s = true -> h_ready s' = false -> exists t, In (t, ODrop) tr).
Proof.
  induction l as [|[t e] l IH]; intros s s' tr A S; cbn [hsteps] in S; [inversion S; subst; split; [intros r []|intros R Q; rewrite R in Q; discriminate Q]|]. destruct (hstep c s (t, e)) as [[s1 t1]|] eqn:E; [|discriminate S]. destruct (hsteps c s1 l) as [[s2 t2]|] eqn:E2; [|discriminate S]. inversion S; subst.
  destruct (alone_step _ _ _ _ _ _ (A _ (or_introl eq_refl)) E) as (X1 & X2). destruct (IH _ _ _ (fun x H => A x (or_intror H)) E2) as (Y1 & Y2). split.
  - intros r Q. apply in_app_or in Q as [Q|Q]; [exact (X1 _ Q)|exact (Y1 _ Q)].
  - intros R Q. destruct (h_ready s1) eqn:R1; [destruct (Y2 eq_refl Q) as (q & H); exists q; apply in_or_app; auto|]. exists t. apply in_or_app. auto.
Qed.

(** With a steady clock a link is dropped, if at all, less than interval * (max_absence + 1) seconds (plus what the timer is late) after something was received. *)
Theorem C38_in_time c t0 off l s tr t : hc_ok c -> 0 < wall off t0 -> steady l -> hsteps c (h0 c t0 off) l = Some (s, tr) -> In (t, ODrop) tr ->
  exists r, heard t0 tr r /\ t - r < hc_int c * (hc_max c + 1) * 1000 + hc_late c.
Proof.
  intros OK W ST S D. destruct (HI_steps _ _ _ _ _ _ _ _ _ _ OK W (HI_init c t0 off OK) ST S) as (r & y & I). pose proof (ti_due _ _ (TI_steps _ _ _ _ _ OK (TI_init c t0 off OK) S)) as L. exists r. split; [exact (hi_r _ _ _ _ _ _ _ I)|]. destruct (hi_drop _ _ _ _ _ _ _ I _ D) as (-> & _). pose proof (hi_chk _ _ _ _ _ _ _ I). lia.
Qed.
Print Assumptions C38_in_time.

(** A link whose peer falls silent can only be dropped: left alone it is, within that time of the last reception. *)
Theorem C38_ends c t0 off l s tr : hc_ok c -> 0 < wall off t0 -> steady l -> hsteps c (h0 c t0 off) l = Some (s, tr) -> h_ready s = true ->
  exists l' s' tr' t, hsteps c s l' = Some (s', tr') /\ alone l' /\ h_ready s' = false /\ In (t, ODrop) tr' /\ exists r, heard t0 tr r /\ t - r < hc_int c * (hc_max c + 1) * 1000 + hc_late c.
Proof.
  intros OK W ST S R. destruct (C38_goes_on c t0 off l s tr (h_t s + hc_int c * (hc_max c + 1) * 1000 + hc_late c) OK S R) as (l' & s' & tr' & S' & A & G). destruct (alone_steps _ _ _ _ _ A S') as (NR & DR).
  assert (SS : hsteps c (h0 c t0 off) (l ++ l') = Some (s', tr ++ tr')) by (rewrite hsteps_app, S, S'; reflexivity).
  assert (ST' : steady (l ++ l')). { intros t z H. apply in_app_or in H as [H|H]; [exact (ST _ _ H)|exact (alone_steady _ A _ _ H)]. }
  assert (HE : forall r, heard t0 (tr ++ tr') r -> heard t0 tr r). { intros r H. apply heard_app in H as [H|H]; [exact H|contradiction (NR _ H)]. }
  assert (Q : h_ready s' = false). { destruct (h_ready s') eqn:R'; [|reflexivity]. exfalso. specialize (G eq_refl). destruct (C38_detected _ _ _ _ _ _ OK W ST' SS R') as (r & H & L). apply HE in H. destruct (HI_steps _ _ _ _ _ _ _ _ _ _ OK W (HI_init c t0 off OK) ST S) as (r1 & y & I). pose proof (hi_rm _ _ _ _ _ _ _ I _ H). pose proof (hi_rt _ _ _ _ _ _ _ I). lia. }
  destruct (DR R Q) as (t & D). destruct (C38_in_time _ _ _ _ _ _ t OK W ST' SS ltac:(apply in_or_app; auto)) as (r & H & L). exists l', s', tr', t. split; [exact S'|]. split; [exact A|]. split; [exact Q|]. split; [exact D|]. exists r. split; [exact (HE _ H)|exact L].
Qed.
Print Assumptions C38_ends.

(** a link that is writing when its timer expires; it goes on and is dropped in the end *)
Example C38_ends_example : exists s tr, hc_ok ex_c /\ 0 < wall 0 10000 /\ hsteps ex_c (h0 ex_c 10000 0) [(15000, HSend); (15002, HCheck); (15003, HSent); (19000, HRecv)] = Some (s, tr) /\ h_ready s = true /\
  exists s' tr', hsteps ex_c s [(20002, HCheck); (20002, HSent); (25002, HCheck); (25002, HSent); (30002, HCheck); (30002, HSent); (35002, HCheck)] = Some (s', tr') /\ In (35002, ODrop) tr' /\ h_ready s' = false.
Proof. do 2 eexists. split; [unfold hc_ok; cbn; lia|]. split; [reflexivity|]. split; [vm_compute; reflexivity|]. split; [reflexivity|]. do 2 eexists. split; [vm_compute; reflexivity|]. split; [cbn; tauto|reflexivity]. Qed.
