(** C123: while broadcasts are under way, one message group at a time is handed over to the operating system for a link. *)
From Coq Require Import List Arith Bool Lia.
From Verif Require Import M_Visit S_Visit P_Visit.
Import ListNotations.

(** how often link i was added, a write to it was begun (trace) and a write to it was completed (steps of the operating system) *)
Definition adds (i : nat) (t : list ev) : nat := length (filter (fun e => match e with EAdd j => j =? i | _ => false end) t).
Definition writes (i : nat) (t : list ev) : nat := length (filter (fun e => match e with EWire j _ => j =? i | _ => false end) t).
Definition completed (i : nat) (l : list act) : nat := length (filter (fun a => match a with PWrote j => j =? i | _ => false end) l).

Definition sents (i : nat) (p : list hnd) : nat := length (filter (fun h => match h with HSent j => j =? i | _ => false end) p).
Arguments sents : simpl never.
Arguments adds : simpl never.
Arguments writes : simpl never.
Arguments completed : simpl never.
Definition b1 (b : bool) : nat := if b then 1 else 0.
Lemma sents_app i p q : sents i (p ++ q) = sents i p + sents i q.
Proof. unfold sents. rewrite filter_app, app_length. reflexivity. Qed.
Lemma sents_del i : forall p k h, nth_error p k = Some h -> sents i p = sents i [h] + sents i (del_nth k p).
Proof.
  unfold sents. induction p as [|a p IH]; intros [|k] h H; try discriminate; cbn in *.
  - injection H as ->. destruct (match h with HSent j => j =? i | _ => false end); reflexivity.
  - specialize (IH _ _ H). destruct (match a with HSent j => j =? i | _ => false end), (match h with HSent j => j =? i | _ => false end); cbn in *; lia.
Qed.
Lemma sents_starts i j l : sents i (starts_sending l j) = 0.
Proof. unfold starts_sending. destruct (_ && _); reflexivity. Qed.
Lemma adds_app i t e : adds i (t ++ e) = adds i t + adds i e.
Proof. unfold adds. rewrite filter_app, app_length. reflexivity. Qed.
Lemma writes_app i t e : writes i (t ++ e) = writes i t + writes i e.
Proof. unfold writes. rewrite filter_app, app_length. reflexivity. Qed.

Definition sound (j : nat) (s : st) (t : list ev) (p : nat) : Prop := adds j t <= 1 ->
  (adds j t = 0 -> ~ In j (s_pool s) /\ (forall f r, s_app s = Visit f r -> ~ In j r) /\ l_buf (s_link s j) = [] /\ l_sending (s_link s j) = false) /\
  b1 (l_writing (s_link s j)) + sents j (s_pend s) = b1 (l_sending (s_link s j)) /\ writes j t = p + b1 (l_writing (s_link s j)).

(** steps that touch neither the pool, the visit nor what sending depends on *)
Lemma sound_same j s t p s' e : sound j s t p -> adds j e = 0 -> writes j e = 0 ->
  s_pool s' = s_pool s -> (forall f r, s_app s' = Visit f r -> exists f' r', s_app s = Visit f' r' /\ (In j r -> In j r')) ->
  l_buf (s_link s' j) = l_buf (s_link s j) -> l_sending (s_link s' j) = l_sending (s_link s j) -> l_writing (s_link s' j) = l_writing (s_link s j) ->
  sents j (s_pend s') = sents j (s_pend s) -> sound j s' (t ++ e) p.
Proof.
  intros H A W P V B S R N Q. rewrite adds_app, A, Nat.add_0_r in *. rewrite writes_app, W, Nat.add_0_r, P, B, S, R, N. destruct (H Q) as (H1 & H2 & H3).
  split; [|auto]. intros Z. destruct (H1 Z) as (I1 & I2 & I3 & I4). split; [exact I1|]. split; [|auto]. intros f r Y I. destruct (V _ _ Y) as (f' & r' & Y' & X). exact (I2 _ _ Y' (X I)).
Qed.
Lemma same_vis s : forall f r, s_app s = Visit f r -> forall j : nat, exists f' r', s_app s = Visit f' r' /\ (In j r -> In j r').
Proof. intros f r H j. exists f, r. auto. Qed.
Ltac upj j := unfold upd; match goal with |- context [j =? ?i] => destruct (Nat.eqb_spec j i); [subst|] | _ => idtac end.

Lemma sound_shut j s i s1 e1 : shut s i = (s1, e1) ->
  s_pool s1 = s_pool s /\ s_app s1 = s_app s /\ s_lock s1 = s_lock s /\ s_thr s1 = s_thr s /\ l_buf (s_link s1 j) = l_buf (s_link s j) /\ l_sending (s_link s1 j) = l_sending (s_link s j) /\ l_writing (s_link s1 j) = l_writing (s_link s j) /\
  sents j (s_pend s1) = sents j (s_pend s) /\ adds j e1 = 0 /\ writes j e1 = 0.
Proof.
  unfold shut. destruct (l_up (s_link s i)); intros H; injection H as <- <-; pj; rewrite ?sents_app; unfold upd.
  - repeat split; try (destruct (Nat.eqb_spec j i); [subst|]; reflexivity). unfold sents. cbn. lia.
  - repeat split.
Qed.

(** do_send on a link without a write in progress *)
Lemma sound_do_send j s t p i l' ms pend :
  sound j s t p -> do_send (s_link s i) = (l', ms) -> (j = i -> adds j t <= 1 -> l_writing (s_link s i) = false /\ sents j pend = 0) -> (j <> i -> sents j pend = sents j (s_pend s)) ->
  sound j (mk_st (s_lock s) (s_app s) (s_pool s) (upd (s_link s) i l') (pend ++ []) (s_thr s)) (t ++ wire i ms) p.
Proof.
  intros H D A B Q. assert (Z : adds j (wire i ms) = 0) by (destruct ms; reflexivity). rewrite adds_app, Z, Nat.add_0_r in *. destruct (H Q) as (H1 & H2 & H3). rewrite app_nil_r. pj.
  unfold upd. destruct (Nat.eqb_spec j i) as [->|NE].
  - destruct (A eq_refl Q) as (W & X). rewrite X, writes_app. rewrite W in *. unfold do_send in D. destruct (l_buf (s_link s i)) as [|b r] eqn:BF; injection D as <- <-; pj; cbn [b1 wire].
    + change (writes i []) with 0. cbn in H3 |- *. split; [|split; [reflexivity|lia]]. intros Y. destruct (H1 Y) as (? & ? & _). repeat split; auto.
    + split; [|unfold writes at 2; cbn; rewrite Nat.eqb_refl; cbn in *; lia]. intros Y. destruct (H1 Y) as (_ & _ & Y' & _). discriminate Y'.
  - rewrite (B NE), writes_app. assert (Y : writes j (wire i ms) = 0) by (destruct ms; [reflexivity|]; unfold writes; cbn; destruct (Nat.eqb_spec i j); [congruence|reflexivity]). rewrite Y, Nat.add_0_r. auto.
Qed.

Lemma sound_step c j s t p a s' e : sound j s t p -> step c s a = Some (s', e) -> sound j s' (t ++ e) (p + completed j [a]).
Proof.
  intros H D. unfold step in D.
  assert (SAME : forall q, q = p -> sound j s (t ++ []) q) by (intros q ->; rewrite app_nil_r; exact H).
  destruct a; try (replace (p + completed j _) with p by (unfold completed; cbn; lia)).
  - destruct (s_app s) eqn:A; try discriminate. injection D as <- <-. apply (sound_same j s); auto; pj. discriminate.
  - destruct (s_app s) as [| f | |] eqn:A; try discriminate. destruct (s_lock s); [discriminate|]. injection D as <- <-. intros Q. rewrite adds_app in *. pj. rewrite writes_app. change (adds j [EBegin f]) with 0 in *. change (writes j [EBegin f]) with 0. rewrite !Nat.add_0_r in *. destruct (H Q) as (H1 & H2 & H3). split; [|auto]. intros Z. destruct (H1 Z) as (I1 & I2 & I3 & I4). repeat split; auto.
    intros f' r Y. injection Y as <- <-. exact I1.
  - destruct (s_app s) as [| | f l |] eqn:A; try discriminate. destruct l as [|i r].
    { injection D as <- <-. apply (sound_same j s); auto; pj. discriminate. }
    unfold visit in D. destruct f as [|sf ov m|asks].
    + destruct (c_inline c).
      * destruct (l_starting (s_link s i)); [injection D as <- <-; auto|]. destruct (shut s i) as [s1 e1] eqn:S. injection D as <- <-. destruct (sound_shut j _ _ _ _ S) as (S1 & S2 & S3 & S4 & S5 & S6 & S7 & S8 & S9 & S10).
        apply (sound_same j s); auto; pj; auto. intros f r' Y. injection Y as <- <-. exists CShut, (i :: r). split; [exact A|]. intros; right; assumption.
      * injection D as <- <-. apply (sound_same j s); auto; pj; try (upj j; reflexivity).
        -- intros f r' Y. injection Y as <- <-. exists CShut, (i :: r). split; [exact A|]. intros; right; assumption.
        -- rewrite sents_app. unfold sents at 2. cbn. lia.
    + destruct (ov || (length (l_buf (s_link s i)) <? c_limit c)); [|destruct (sf && l_up (s_link s i))]; injection D as <- <-; auto.
      * intros Q. rewrite adds_app in *. rewrite writes_app. change (adds j [EVisit i (RQueued m)]) with 0 in *. change (writes j [EVisit i (RQueued m)]) with 0. rewrite !Nat.add_0_r in *. pj. destruct (H Q) as (H1 & H2 & H3). rewrite sents_app, sents_starts, Nat.add_0_r. unfold upd. destruct (Nat.eqb_spec j i) as [->|NE]; pj.
        -- split; [|auto]. intros Z. destruct (H1 Z) as (_ & I2 & _). destruct (I2 _ _ A). left. reflexivity.
        -- split; [|auto]. intros Z. destruct (H1 Z) as (I1 & I2 & I3 & I4). repeat split; auto. intros f' r' Y I. injection Y as <- <-. exact (I2 _ _ A (or_intror I)).
      * apply (sound_same j s); auto; pj. intros f r' Y. injection Y as <- <-. eexists _, (i :: r). split; [exact A|]. intros; right; assumption.
    + destruct asks; injection D as <- <-; (apply (sound_same j s); auto; pj); try discriminate. intros f r' Y. injection Y as <- <-. eexists _, (i :: r). split; [exact A|]. intros; right; assumption.
  - destruct (nth_error (s_thr s) w) as [[|]|]; try discriminate. destruct (nth_error (s_pend s) k) as [h|] eqn:K; [|discriminate]. pose proof (sents_del j _ _ _ K) as N.
    assert (REST : forall o, (forall i, h <> HSent i) -> sound j (with_thr (mk_st (s_lock s) (s_app s) (s_pool s) (s_link s) (del_nth k (s_pend s)) (s_thr s)) w o) (t ++ []) p).
    { intros o NH. apply (sound_same j s); auto; pj; [intros; eapply same_vis; eassumption|]. rewrite N. destruct h; try reflexivity. destruct (NH i eq_refl). }
    destruct h as [i|i|i|i|i].
    + change (sents j [HSend i]) with 0 in N. destruct (l_sending (s_link s i)) eqn:SE.
      * injection D as <- <-. apply (sound_same j s); auto; pj. intros; eapply same_vis; eassumption.
      * destruct (do_send (s_link s i)) as [l' ms] eqn:E. injection D as <- <-. refine (sound_do_send j s t p i l' ms _ H E _ _); [|auto]. intros -> Q. destruct (H Q) as (_ & H2 & _). rewrite SE in H2. destruct (l_writing (s_link s i)); cbn in *; [lia|]. split; [reflexivity|lia].
    + destruct (l_up (s_link s i)) eqn:UP.
      * destruct (do_send (s_link s i)) as [l' ms] eqn:E. injection D as <- <-. refine (sound_do_send j s t p i l' ms _ H E _ _).
        -- intros -> Q. destruct (H Q) as (_ & H2 & _). change (sents i [HSent i]) with (length (if i =? i then [HSent i] else [])) in N. rewrite Nat.eqb_refl in N. cbn in N. destruct (l_writing (s_link s i)), (l_sending (s_link s i)); cbn in *; split; try reflexivity; lia.
        -- intros NE. change (sents j [HSent i]) with (length (if i =? j then [HSent i] else [])) in N. destruct (Nat.eqb_spec i j); [congruence|]. cbn in N. pj. lia.
      * injection D as <- <-. destruct (Nat.eq_dec j i) as [->|NE].
        -- intros Q. rewrite app_nil_r in *. pj. rewrite app_nil_r, upd_eq. pj. destruct (H Q) as (H1 & H2 & H3). change (sents i [HSent i]) with (length (if i =? i then [HSent i] else [])) in N. rewrite Nat.eqb_refl in N. cbn in N.
           split; [intros Z; destruct (H1 Z) as (? & ? & ? & ?); auto|]. destruct (l_writing (s_link s i)), (l_sending (s_link s i)); cbn in *; split; lia.
        -- apply (sound_same j s); auto; pj; rewrite ?(upd_neq _ _ _ _ NE); auto; [intros; eapply same_vis; eassumption|]. rewrite app_nil_r. change (sents j [HSent i]) with (length (if i =? j then [HSent i] else [])) in N. destruct (Nat.eqb_spec i j); [congruence|]. cbn in N. lia.
    + injection D as <- <-. apply REST. discriminate.
    + injection D as <- <-. apply REST. discriminate.
    + injection D as <- <-. apply REST. discriminate.
  - destruct (nth_error (s_thr s) w) as [[[i|i|i|i|i]|]|]; try discriminate.
    + destruct (s_lock s); [discriminate|]. destruct (existsb (Nat.eqb i) (s_pool s)) eqn:X; injection D as <- <-.
      * apply (sound_same j s); auto; pj. intros; eapply same_vis; eassumption.
      * intros Q. rewrite adds_app in *. rewrite writes_app. change (adds j [EAdd i]) with (length (if i =? j then [EAdd i] else [])) in *. change (writes j [EAdd i]) with 0. rewrite Nat.add_0_r. pj. unfold upd. rewrite (Nat.eqb_sym i j) in *. destruct (Nat.eqb_spec j i) as [->|NE]; pj; cbn in *.
        -- assert (Z : adds i t = 0) by lia. unfold sound in H. rewrite Z in H. destruct (H (Nat.le_0_l _)) as (H1 & H2 & H3). destruct (H1 eq_refl) as (I1 & I2 & I3 & I4). rewrite I4 in H2. split; [intros; lia|]. destruct (l_writing (s_link s i)); cbn in *; split; lia.
        -- rewrite !Nat.add_0_r in *. destruct (H Q) as (H1 & H2 & H3). split; [|auto]. intros Z. destruct (H1 Z) as (I1 & I2 & I3). split; [|auto]. intros I. apply in_app_or in I. destruct I as [I|[I|[]]]; [exact (I1 I)|congruence].
    + injection D as <- <-. apply (sound_same j s); auto; pj; try (upj j; reflexivity); [intros; eapply same_vis; eassumption|]. rewrite app_nil_r. reflexivity.
    + destruct (c_asks c && s_lock s); [discriminate|]. injection D as <- <-. apply (sound_same j s); auto; pj; try (upj j; reflexivity); [intros; eapply same_vis; eassumption|]. rewrite sents_app, sents_starts. lia.
    + destruct (l_starting (s_link s i)); [discriminate|]. destruct (shut s i) as [s1 e1] eqn:S. injection D as <- <-. destruct (sound_shut j _ _ _ _ S) as (S1 & S2 & S3 & S4 & S5 & S6 & S7 & S8 & S9 & S10).
      apply (sound_same j s); auto; pj; auto. rewrite S2. intros; eapply same_vis; eassumption.
    + destruct (s_lock s); [discriminate|]. injection D as <- <-. assert (AE : forall b : bool, adds j (if b then [EDel i] else []) = 0 /\ writes j (if b then [EDel i] else []) = 0) by (intros []; split; reflexivity).
      intros Q. rewrite adds_app, writes_app in *. destruct (AE (existsb (Nat.eqb i) (s_pool s))) as (A1 & A2). rewrite A1 in Q. rewrite A1, A2. rewrite !Nat.add_0_r in *. pj. destruct (H Q) as (H1 & H2 & H3). split; [|auto].
      intros Z. destruct (H1 Z) as (I1 & I2 & I3). split; [|auto]. intros I. apply filter_In in I. exact (I1 (proj1 I)).
  - destruct (l_writing (s_link s i)) eqn:W; [|discriminate]. injection D as <- <-. unfold completed. cbn. destruct (Nat.eqb_spec i j) as [->|NE]; cbn.
    + intros Q. rewrite app_nil_r in *. pj. rewrite upd_eq, sents_app. pj. destruct (H Q) as (H1 & H2 & H3). rewrite W in *. unfold sents at 2. cbn. rewrite Nat.eqb_refl. cbn in *. split; [|split; lia]. intros Z. destruct (H1 Z) as (? & ? & ? & ?). auto.
    + rewrite Nat.add_0_r. apply (sound_same j s); auto; pj; rewrite ?(upd_neq _ _ _ _ (fun q => NE (eq_sym q))); auto; [intros; eapply same_vis; eassumption|]. rewrite sents_app. unfold sents at 2. cbn. destruct (Nat.eqb_spec i j); [congruence|]. cbn. lia.
  - destruct (l_up (s_link s i) && negb (l_starting (s_link s i))); [|discriminate]. injection D as <- <-. apply (sound_same j s); auto; pj; try (upj j; reflexivity); [intros; eapply same_vis; eassumption|]. rewrite sents_app. unfold sents at 2. cbn. lia.
  - injection D as <- <-. apply (sound_same j s); auto; pj; [intros; eapply same_vis; eassumption|]. rewrite sents_app. unfold sents at 2. cbn. lia.
Qed.
Lemma sound_run c j : forall l s t p s' t', sound j s t p -> run c s l = Some (s', t') -> sound j s' (t ++ t') (p + completed j l).
Proof.
  induction l as [|a l IH]; intros s t p s' t' H R; cbn [run] in R.
  - injection R as <- <-. rewrite app_nil_r. unfold completed. cbn. rewrite Nat.add_0_r. exact H.
  - destruct (step c s a) as [[s1 e1]|] eqn:D; [|discriminate]. destruct (run c s1 l) as [[s2 e2]|] eqn:R2; [|discriminate]. injection R as <- <-.
    pose proof (IH _ _ _ _ _ (sound_step _ _ _ _ _ _ _ _ H D) R2) as Z. rewrite <- app_assoc in Z. replace (p + completed j [a] + completed j l) with (p + completed j (a :: l)) in Z; [exact Z|].
    unfold completed. cbn. destruct (match a with PWrote j0 => j0 =? j | _ => false end); cbn; lia.
Qed.

(** A link that was added once (names of links are not used again, C43): a write to it is begun only after all former writes were completed. *)
Theorem C123_one : forall c n l s t i, run c (init n) l = Some (s, t) -> adds i t <= 1 -> completed i l <= writes i t <= completed i l + 1.
Proof.
  intros c n l s t i R A. assert (S0 : sound i (init n) [] 0) by (intros _; split; [intros _; split; [intros []|split; [discriminate|split; reflexivity]]|split; reflexivity]).
  destruct (sound_run c i l _ _ _ _ _ S0 R A) as (_ & _ & W). cbn [app] in W. destruct (l_writing (s_link s i)); cbn in W; lia.
Qed.
Print Assumptions C123_one.
(** two broadcasts in a row: the second message waits until the first one was written *)
Definition l_row : list act := l_full ++ [SPick 0 0; AStep; AStep; SPick 0 0].
Example C123_one_ex : exists s t, run c_one (init 1) l_row = Some (s, t) /\ adds 0 t = 1 /\ writes 0 t = 1 /\ completed 0 l_row = 0.
Proof. do 2 eexists. split; [vm_compute; reflexivity|]. split; [reflexivity|split; reflexivity]. Qed.
