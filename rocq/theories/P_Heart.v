(** C38: dead links are detected in bounded time, live links are kept, heartbeats are sent often enough. *)
From Coq Require Import List ZArith Bool Lia ZifyBool.
From Verif Require Import M_Heart.
Import ListNotations.
Open Scope Z_scope.

(** something was received (or the link was established) at [r] *)
Definition heard (start : Z) (tr : list (Z * hout)) (r : Z) : Prop := r = start \/ In (r, ORecv) tr.
(** something was sent (or the link was established) at [r] *)
Definition said (start : Z) (tr : list (Z * hout)) (r : Z) : Prop := r = start \/ In (r, OSent) tr.
(** nobody sets the clock *)
Definition steady (l : list (Z * hin)) : Prop := forall t z, ~ In (t, HAdjust z) l.

Lemma hsteps_app c l1 : forall s l2, hsteps c s (l1 ++ l2) = match hsteps c s l1 with None => None | Some (s1, t1) => match hsteps c s1 l2 with None => None | Some (s2, t2) => Some (s2, t1 ++ t2) end end.
Proof.
  induction l1 as [|x l1 IH]; intros s l2; cbn [app hsteps]; [destruct (hsteps c s l2) as [[]|]; reflexivity|]. destruct (hstep c s x) as [[s1 t1]|]; [|reflexivity]. rewrite IH. destruct (hsteps c s1 l1) as [[s2 t2]|]; [|reflexivity]. destruct (hsteps c s2 l2) as [[s3 t3]|]; [|reflexivity]. rewrite app_assoc. reflexivity.
Qed.

(** ** live links *)
(** A link that received something less than interval * max_absence seconds ago is not dropped. *)
Definition C38_live_statement : Prop := forall c t0 off l s tr t r, hc_ok c -> 0 < wall off t0 -> steady l -> hsteps c (h0 c t0 off) l = Some (s, tr) -> In (t, ODrop) tr -> heard t0 tr r -> hc_int c * hc_max c * 1000 <= t - r.
(** False: times are truncated to seconds. Here the link is dropped 14.001 seconds after it received something, not 15. *)
Theorem C38_live_refuted : exists c t0 l s tr, hc_ok c /\ hc_int c = 5 /\ hc_max c = 3 /\ 0 < wall 0 t0 /\ steady l /\ hsteps c (h0 c t0 0) l = Some (s, tr) /\ In (25000, ODrop) tr /\ In (10999, ORecv) tr.
Proof.
  exists (mk_hcfg 5 3 0 1), 10000, [(10999, HRecv); (15000, HCheck); (15001, HSent); (20000, HCheck); (20001, HSent); (25000, HCheck)]. do 2 eexists. split; [|split; [reflexivity|split; [reflexivity|split; [reflexivity|split; [|split; [vm_compute; reflexivity|]]]]]].
  - unfold hc_ok. cbn. lia.
  - intros t z H. cbn in H. repeat destruct H as [H|H]; try discriminate; exact H.
  - split; cbn; tauto.
Qed.
Print Assumptions C38_live_refuted.
Theorem C38_live_statement_refuted : ~ C38_live_statement.
Proof.
  intros H. destruct C38_live_refuted as (c & t0 & l & s & tr & OK & I & M & W & ST & R & D & V). specialize (H c t0 0 l s tr 25000 10999 OK W ST R D (or_intror V)). rewrite I, M in H. lia.
Qed.
Print Assumptions C38_live_statement_refuted.
(** And when the clock is set forward, a link that received something a millisecond ago may be dropped. *)
Theorem C38_clock_refuted : exists c t0 l s tr, hc_ok c /\ hc_int c = 5 /\ hc_max c = 3 /\ hsteps c (h0 c t0 0) l = Some (s, tr) /\ In (15000, ODrop) tr /\ In (14999, ORecv) tr.
Proof.
  exists (mk_hcfg 5 3 0 1), 10000, [(14999, HRecv); (14999, HAdjust 3600000); (15000, HCheck)]. do 2 eexists. split; [unfold hc_ok; cbn; lia|]. split; [reflexivity|]. split; [reflexivity|]. split; [vm_compute; reflexivity|]. split; cbn; tauto.
Qed.
Print Assumptions C38_clock_refuted.


(** ** what holds at any time, the clock being steady *)
(** [r]: when something was received last; [y]: when a send was completed last; both real times *)
Definition gap (c : hcfg) : Z := 2 * hc_int c * 1000 + hc_late c + hc_slow c.
Record HI (c : hcfg) (t0 off : Z) (s : hst) (tr : list (Z * hout)) (r y : Z) : Prop := mk_HI {
  hi_off : h_off s = off;
  hi_r : heard t0 tr r; hi_rm : forall r', heard t0 tr r' -> r' <= r; hi_rt : t0 <= r <= h_t s; hi_recv : h_recv s = wall off r;
  hi_y : said t0 tr y; hi_yt : t0 <= y <= h_t s; hi_send : h_send s = wall off y \/ (y = t0 /\ h_send s = 0);
  hi_due : h_due s <= h_t s + hc_int c * 1000;
  hi_chk : h_due s - hc_int c * 1000 - r < hc_int c * hc_max c * 1000;
  hi_late : h_ready s = true -> h_t s <= h_due s + hc_late c;
  hi_idle : h_busy s = None -> h_due s <= y + 2 * hc_int c * 1000;
  hi_busy : forall b, h_busy s = Some b -> b <= y + 2 * hc_int c * 1000 + hc_late c;
  hi_cover : forall x, t0 <= x <= h_t s -> exists z, said t0 tr z /\ z <= x <= z + gap c;
  hi_ready : h_ready s = true -> forall t, ~ In (t, ODrop) tr;
  hi_drop : forall t, In (t, ODrop) tr -> t = h_t s /\ (hc_int c * hc_max c - 1) * 1000 < t - r
}.
Lemma wall_ge off a b k : k <= wall off a - wall off b -> (k - 1) * 1000 < a - b.
Proof. unfold wall. intros G. pose proof (Z.div_mod (a + off) 1000 ltac:(lia)). pose proof (Z.div_mod (b + off) 1000 ltac:(lia)). pose proof (Z.mod_pos_bound (a + off) 1000 ltac:(lia)). pose proof (Z.mod_pos_bound (b + off) 1000 ltac:(lia)). lia. Qed.
Lemma wall_lt off a b k : wall off a - wall off b < k -> a - b < k * 1000.
Proof. unfold wall. intros G. pose proof (Z.div_mod (a + off) 1000 ltac:(lia)). pose proof (Z.div_mod (b + off) 1000 ltac:(lia)). pose proof (Z.mod_pos_bound (a + off) 1000 ltac:(lia)). pose proof (Z.mod_pos_bound (b + off) 1000 ltac:(lia)). lia. Qed.
Lemma wall_mono off a b : a <= b -> wall off a <= wall off b.
Proof. intros L. apply Z.div_le_mono; lia. Qed.
Lemma heard_app t0 tr t1 r : heard t0 (tr ++ t1) r <-> heard t0 tr r \/ In (r, ORecv) t1.
Proof. unfold heard. rewrite in_app_iff. tauto. Qed.
Lemma said_app t0 tr t1 r : said t0 (tr ++ t1) r <-> said t0 tr r \/ In (r, OSent) t1.
Proof. unfold said. rewrite in_app_iff. tauto. Qed.
Lemma HI_step c t0 off s tr r y x s' tr' : hc_ok c -> 0 < wall off t0 -> HI c t0 off s tr r y -> (forall z, snd x <> HAdjust z) -> hstep c s x = Some (s', tr') ->
  h_t s <= h_t s' /\ exists r' y', HI c t0 off s' (tr ++ tr') r' y'.
Proof.
  intros (C1 & C2 & C3 & C4 & C5 & C6) W0 [A B1 B2 B3 B4 D1 D3 D4 E1 E2 E3 F1 F2 G R1 R2] NA S. destruct x as [t e]. cbn [hstep] in S. destruct (h_ready s) eqn:RD; [|discriminate]. cbn [andb] in S. specialize (E3 eq_refl). specialize (R1 eq_refl).
  destruct (h_t s <=? t) eqn:T1; [|discriminate]. destruct (t <=? h_due s + hc_late c) eqn:T2; [|discriminate]. cbn [andb] in S. destruct (match h_busy s with Some b => t <=? b + hc_slow c | None => true end) eqn:T3; [|discriminate].
  assert (LT : t <= y + gap c). { unfold gap. destruct (h_busy s) as [b|]; [specialize (F2 _ eq_refl)|specialize (F1 eq_refl)]; lia. }
  assert (CV : forall tr1 x, t0 <= x <= t -> exists z, said t0 (tr ++ tr1) z /\ z <= x <= z + gap c).
  { intros tr1 x X. destruct (Z_le_gt_dec x (h_t s)) as [L|L]; [destruct (G x ltac:(lia)) as (z & Z1 & Z2); exists z; rewrite said_app; auto|]. exists y. rewrite said_app. split; [auto|lia]. }
  assert (ND : forall o, o <> ODrop -> forall q, ~ In (q, ODrop) (tr ++ [(t, o)])). { intros o O q Q. apply in_app_or in Q as [Q|[Q|[]]]; [exact (R1 _ Q)|]. inversion Q. subst. exact (O eq_refl). }
  assert (NN : forall q, ~ In (q, ODrop) (tr ++ [])) by (intros q; rewrite app_nil_r; apply R1).
  assert (HN : forall o q, o <> ORecv -> heard t0 (tr ++ [(t, o)]) q -> heard t0 tr q). { intros o q O Q. apply heard_app in Q as [Q|[Q|[]]]; [exact Q|]. inversion Q. subst. contradiction. }
  destruct e.
  - inversion S; subst; clear S. cbn [h_t]. split; [lia|]. exists t, y. constructor; cbn [h_off h_t h_recv h_send h_ready h_busy h_due]; try assumption; try reflexivity; try lia.
    + apply heard_app. right. left. reflexivity.
    + intros q Q. apply heard_app in Q as [Q|[Q|[]]]; [specialize (B2 _ Q); lia|inversion Q; lia].
    + apply said_app. auto.
    + apply CV.
    + intros _. apply ND. discriminate.
    + intros q Q. exfalso. revert Q. apply ND. discriminate.
  - destruct (h_busy s) eqn:BU; [discriminate|]. inversion S; subst; clear S. cbn [h_t]. split; [lia|]. exists r, y. specialize (F1 eq_refl). constructor; cbn [h_off h_t h_recv h_send h_ready h_busy h_due]; try assumption; try reflexivity; try lia; try discriminate.
    + apply heard_app. auto.
    + intros q Q. apply B2. apply HN in Q; [exact Q|discriminate].
    + apply said_app. auto.
    + intros b Hb. inversion Hb; subst. lia.
    + apply CV.
    + intros _. apply ND. discriminate.
    + intros q Q. exfalso. revert Q. apply ND. discriminate.
  - destruct (h_busy s) eqn:BU; [|discriminate]. inversion S; subst; clear S. cbn [h_t]. split; [lia|]. exists r, t. constructor; cbn [h_off h_t h_recv h_send h_ready h_busy h_due]; try assumption; try reflexivity; try lia; try discriminate.
    + apply heard_app. auto.
    + intros q Q. apply B2. apply HN in Q; [exact Q|discriminate].
    + apply said_app. right. left. reflexivity.
    + apply CV.
    + intros _. apply ND. discriminate.
    + intros q Q. exfalso. revert Q. apply ND. discriminate.
  - destruct (h_due s <=? t) eqn:T4; [|discriminate]. injection S as S. unfold check in S. rewrite RD in S. assert (0 < h_recv s) by (rewrite B4; pose proof (wall_mono off t0 r ltac:(lia)); lia). replace (0 <? h_recv s) with true in S by lia. cbn [andb] in S. rewrite A in S. rewrite B4 in S.
    destruct (hc_int c * hc_max c <=? wall off t - wall off r) eqn:DR.
    + inversion S; subst; clear S. cbn [h_t]. split; [lia|]. exists r, y. constructor; cbn [h_off h_t h_recv h_send h_ready h_busy h_due]; try assumption; try reflexivity; try lia; try discriminate.
      * apply heard_app. auto.
      * intros q Q. apply B2. apply HN in Q; [exact Q|discriminate].
      * apply said_app. auto.
      * apply CV.
      * intros q Q. apply in_app_or in Q as [Q|[Q|[]]]; [exfalso; exact (R1 _ Q)|]. inversion Q; subst. split; [reflexivity|]. apply (wall_ge (h_off s)). lia.
    + assert (CK : t - r < hc_int c * hc_max c * 1000) by (apply (wall_lt off); lia). destruct (h_busy s) as [b|] eqn:BU.
      * inversion S; subst; clear S. cbn [h_t]. split; [lia|]. exists r, y. rewrite app_nil_r in *. constructor; cbn [h_off h_t h_recv h_send h_ready h_busy h_due]; try assumption; try reflexivity; try lia; try discriminate.
        -- intros x X. specialize (CV [] x X). rewrite app_nil_r in CV. exact CV.
        -- intros _. exact R1.
        -- intros q Q. exfalso. exact (R1 _ Q).
      * destruct (hc_int c <=? wall off t - h_send s) eqn:HB; inversion S; subst; clear S; cbn [h_t]; (split; [lia|]); exists r, y; specialize (F1 eq_refl); constructor; cbn [h_off h_t h_recv h_send h_ready h_busy h_due]; try assumption; try reflexivity; try lia; try discriminate.
        -- apply heard_app. auto.
        -- intros q Q. apply B2. apply HN in Q; [exact Q|discriminate].
        -- apply said_app. auto.
        -- intros b Hb. inversion Hb; subst. lia.
        -- apply CV.
        -- intros _. apply ND. discriminate.
        -- intros q Q. exfalso. revert Q. apply ND. discriminate.
        -- apply heard_app. auto.
        -- intros q Q. apply heard_app in Q as [Q|[]]. auto.
        -- apply said_app. auto.
        -- intros _. assert (t - y < hc_int c * 1000); [|lia]. destruct D4 as [D4|(D4 & D5)]; [apply (wall_lt (h_off s)); lia|]. apply (wall_lt (h_off s)). subst y. lia.
        -- apply CV.
        -- intros _. apply NN.
        -- intros q Q. exfalso. exact (NN _ Q).
  - inversion S; subst; clear S. cbn [h_t]. split; [lia|]. exists r, y. constructor; cbn [h_off h_t h_recv h_send h_ready h_busy h_due]; try assumption; try reflexivity; try lia; try discriminate.
    + apply heard_app. auto.
    + intros q Q. apply B2. apply HN in Q; [exact Q|discriminate].
    + apply said_app. auto.
    + apply CV.
    + intros q Q. exfalso. revert Q. apply ND. discriminate.
  - inversion S; subst; clear S. cbn [h_t]. split; [lia|]. exists r, y. constructor; cbn [h_off h_t h_recv h_send h_ready h_busy h_due]; try assumption; try reflexivity; try lia; try discriminate.
    + apply heard_app. auto.
    + intros q Q. apply heard_app in Q as [Q|[]]. auto.
    + apply said_app. auto.
    + apply CV.
    + intros _. apply NN.
    + intros q Q. exfalso. exact (NN _ Q).
  - exfalso. exact (NA z eq_refl).
Qed.
Lemma HI_steps c t0 off l : forall s tr r y s' tr', hc_ok c -> 0 < wall off t0 -> HI c t0 off s tr r y -> steady l -> hsteps c s l = Some (s', tr') -> exists r' y', HI c t0 off s' (tr ++ tr') r' y'.
Proof.
  induction l as [|x l IH]; intros s tr r y s' tr' OK W I ST S; cbn [hsteps] in S; [inversion S; subst; exists r, y; rewrite app_nil_r; exact I|]. destruct (hstep c s x) as [[s1 t1]|] eqn:E; [|discriminate]. destruct (hsteps c s1 l) as [[s2 t2]|] eqn:E2; [|discriminate]. inversion S; subst.
  destruct (HI_step c t0 off s tr r y x s1 t1 OK W I) as (_ & r1 & y1 & I1); [intros z Z; apply (ST (fst x) z); left; rewrite <- Z; destruct x; reflexivity|exact E|]. rewrite app_assoc. apply (IH _ _ _ _ _ _ OK W I1); [|exact E2]. intros t z Q. exact (ST t z (or_intror Q)).
Qed.
Lemma HI_init c t0 off : hc_ok c -> HI c t0 off (h0 c t0 off) [] t0 t0.
Proof.
  intros (C1 & C2 & C3 & C4 & _). unfold h0. constructor; cbn [h_off h_t h_recv h_send h_ready h_busy h_due]; try reflexivity; try lia; auto; try discriminate; try (left; reflexivity).
  - intros r [Q|[]]. lia.
  - intros x X. exists t0. unfold gap. split; [left; reflexivity|lia].
  - intros t [].
Qed.

(** With a steady clock, a link that received something within the last interval * max_absence - 1 seconds is never dropped. *)
Theorem C38_live_partial c t0 off l s tr t r : hc_ok c -> 0 < wall off t0 -> steady l -> hsteps c (h0 c t0 off) l = Some (s, tr) -> In (t, ODrop) tr -> heard t0 tr r -> (hc_int c * hc_max c - 1) * 1000 < t - r.
Proof. intros OK W ST S D V. destruct (HI_steps _ _ _ _ _ _ _ _ _ _ OK W (HI_init c t0 off OK) ST S) as (r' & y & I). destruct (hi_drop _ _ _ _ _ _ _ I _ D) as (_ & G). pose proof (hi_rm _ _ _ _ _ _ _ I _ V). lia. Qed.
Print Assumptions C38_live_partial.

(** ** silent links *)
(** A check that takes place interval * max_absence seconds after the last reception drops the link. *)
Theorem C38_silent c t0 off l s tr t s' tr' : hc_ok c -> 0 < wall off t0 -> steady l -> hsteps c (h0 c t0 off) l = Some (s, tr) -> hstep c s (t, HCheck) = Some (s', tr') ->
  (forall r, heard t0 tr r -> hc_int c * hc_max c * 1000 <= t - r) -> tr' = [(t, ODrop)] /\ h_ready s' = false.
Proof.
  intros OK W ST S E SI. destruct (HI_steps _ _ _ _ _ _ _ _ _ _ OK W (HI_init c t0 off OK) ST S) as (r & y & I). cbn [app] in I. pose proof (SI r (hi_r _ _ _ _ _ _ _ I)) as G. cbn [hstep] in E. destruct (h_ready s) eqn:RD; [|discriminate]. destruct (_ && _); [|discriminate]. destruct (h_due s <=? t); [|discriminate]. unfold check in E. rewrite RD, (hi_off _ _ _ _ _ _ _ I), (hi_recv _ _ _ _ _ _ _ I) in E.
  assert (0 < wall off r) by (pose proof (wall_mono off t0 r (proj1 (hi_rt _ _ _ _ _ _ _ I))); lia). replace (0 <? wall off r) with true in E by lia. cbn [andb] in E.
  assert (hc_int c * hc_max c <= wall off t - wall off r). { destruct (Z_lt_ge_dec (wall off t - wall off r) (hc_int c * hc_max c)) as [L|L]; [apply wall_lt in L; lia|lia]. }
  replace (hc_int c * hc_max c <=? wall off t - wall off r) with true in E by lia. inversion E; subst. auto.
Qed.
Print Assumptions C38_silent.
(** So a link that is up received something less than interval * (max_absence + 1) seconds ago, plus what the timer is late. *)
Theorem C38_detected c t0 off l s tr : hc_ok c -> 0 < wall off t0 -> steady l -> hsteps c (h0 c t0 off) l = Some (s, tr) -> h_ready s = true ->
  exists r, heard t0 tr r /\ h_t s - r < hc_int c * (hc_max c + 1) * 1000 + hc_late c.
Proof. intros OK W ST S RD. destruct (HI_steps _ _ _ _ _ _ _ _ _ _ OK W (HI_init c t0 off OK) ST S) as (r & y & I). exists r. split; [exact (hi_r _ _ _ _ _ _ _ I)|]. pose proof (hi_late _ _ _ _ _ _ _ I RD). pose proof (hi_chk _ _ _ _ _ _ _ I). lia. Qed.
Print Assumptions C38_detected.

(** ** sending heartbeats *)
(** At any time while the link is up, something was sent within the last 2 * interval seconds (plus what timer and network
    interface take), whether or not the application sends anything. *)
Theorem C38_beats c t0 off l s tr x : hc_ok c -> 0 < wall off t0 -> steady l -> hsteps c (h0 c t0 off) l = Some (s, tr) -> t0 <= x <= h_t s -> exists y, said t0 tr y /\ y <= x <= y + (2 * hc_int c * 1000 + hc_late c + hc_slow c).
Proof. intros OK W ST S X. destruct (HI_steps _ _ _ _ _ _ _ _ _ _ OK W (HI_init c t0 off OK) ST S) as (r & y & I). exact (hi_cover _ _ _ _ _ _ _ I x X). Qed.
Print Assumptions C38_beats.

(** ** both ends together *)
(** If what one end sends arrives at the other one within [lag] ms, both links were established within [lag] ms, the first end
    stays up, and the limits of the second end leave room for that, then the second end does not drop the link. *)
Theorem C38_kept ca cb ta oa tb ob la sa tra lb sb trb lag :
  hc_ok ca -> hc_ok cb -> 0 < wall oa ta -> 0 < wall ob tb -> steady la -> steady lb -> 0 <= lag ->
  hsteps ca (h0 ca ta oa) la = Some (sa, tra) -> hsteps cb (h0 cb tb ob) lb = Some (sb, trb) ->
  Z.abs (ta - tb) <= lag -> h_t sb <= h_t sa + lag ->
  (forall y, In (y, OSent) tra -> y + lag <= h_t sb -> exists r, y - hc_slow ca <= r <= y + lag /\ In (r, ORecv) trb) ->
  2 * hc_int ca * 1000 + hc_late ca + 2 * hc_slow ca + 2 * lag <= (hc_int cb * hc_max cb - 1) * 1000 ->
  forall t, ~ In (t, ODrop) trb.
Proof.
  intros OA OB WA WB SA SB L RA RB TT TA NET ROOM t D. destruct (HI_steps _ _ _ _ _ _ _ _ _ _ OB WB (HI_init cb tb ob OB) SB RB) as (r & y & I). cbn [app] in I. destruct (hi_drop _ _ _ _ _ _ _ I _ D) as (E & G). pose proof (hi_rm _ _ _ _ _ _ _ I) as M.
  destruct OA as (A1 & A2 & A3 & A4 & A5). pose proof (M tb (or_introl eq_refl)) as MB. destruct (Z_lt_ge_dec (t - lag) ta) as [X|X]; [lia|].
  destruct (C38_beats ca ta oa la sa tra (t - lag) ltac:(unfold hc_ok; tauto) WA SA RA ltac:(lia)) as (z & [->|Z1] & Z2 & Z3); [lia|]. destruct (NET z Z1 ltac:(lia)) as (q & Q1 & Q2). pose proof (M q (or_intror Q2)). lia.
Qed.
Print Assumptions C38_kept.

(** an idle link with interval 5 and max_absence 3: heartbeats go to and fro, then the peer falls silent *)
Definition ex_c := mk_hcfg 5 3 20 3.
Definition ex_l : list (Z * hin) := [(15010, HCheck); (15012, HSent); (15500, HRecv); (20012, HCheck); (20014, HSent); (21500, HRecv); (25020, HCheck); (25021, HSent); (30030, HCheck); (30033, HSent); (35040, HCheck); (35041, HSent)].
Example C38_example : exists s tr, hc_ok ex_c /\ 0 < wall 0 10000 /\ steady ex_l /\ hsteps ex_c (h0 ex_c 10000 0) ex_l = Some (s, tr) /\ h_ready s = true /\ In (35040, OBeat) tr /\
  exists s', hstep ex_c s (40050, HCheck) = Some (s', [(40050, ODrop)]) /\ (forall r, heard 10000 tr r -> hc_int ex_c * hc_max ex_c * 1000 <= 40050 - r).
Proof.
  do 2 eexists. split; [unfold hc_ok; cbn; lia|]. split; [reflexivity|]. split; [intros t z H; cbn in H; repeat destruct H as [H|H]; try discriminate; exact H|]. split; [vm_compute; reflexivity|]. split; [reflexivity|]. split; [cbn; tauto|]. eexists. split; [vm_compute; reflexivity|].
  intros r [->|H]; [cbn; lia|]. cbn in H. repeat destruct H as [H|H]; try discriminate; try contradiction; inversion H; subst; cbn; lia.
Qed.
Example C38_kept_example : let c := mk_hcfg 5 3 20 3 in let la := [(15010, HCheck); (15012, HSent); (20012, HCheck); (20014, HSent)] in let lb := [(15100, HRecv); (15200, HCheck); (15201, HSent); (20100, HRecv); (20101, HTick)] in
  exists sa tra sb trb, hsteps c (h0 c 10000 0) la = Some (sa, tra) /\ hsteps c (h0 c 10200 500) lb = Some (sb, trb) /\ h_t sb <= h_t sa + 200 /\ (forall y, In (y, OSent) tra -> y + 200 <= h_t sb -> exists r, y - hc_slow c <= r <= y + 200 /\ In (r, ORecv) trb) /\ h_ready sb = true.
Proof.
  do 4 eexists. split; [vm_compute; reflexivity|]. split; [vm_compute; reflexivity|]. split; [cbn; lia|]. split; [|reflexivity]. intros y H L. cbn in H. repeat destruct H as [H|H]; try discriminate; try contradiction; inversion H; subst; cbn in *; [exists 15100|exists 20100]; split; try lia; tauto.
Qed.
