(** C130 (reuse of socket objects is invisible), C131 (addresses), C132 (nothing of a former use is left). *)
From Coq Require Import List Bool Arith Lia.
From Verif Require Import M_Bytes M_Reuse S_Reuse.
Import ListNotations.
Open Scope nat_scope.

Ltac pj := cbn [o_id o_sets o_adrs o_need o_up o_started o_closing o_conn o_obs o_sendb o_flight o_sending o_read o_paused o_unp o_temp o_recvb o_disp o_hold o_posted
  o_timer o_nsent o_nrecv o_in o_held with_out with_in with_disp with_life with_sets close us_act us_idle us_cur fresh reset].

(** ** an object that can be used again is at rest *)
Record J (o : obj) : Prop := {
  j_temp : o_temp o = [];
  j_live : o_started o = true -> o_closing o = false /\ (o_conn o = true \/ o_read o = true \/ o_paused o = true);
  j_send : o_flight o = [] -> o_sending o = false
}.
Lemma J_fresh c i : J (fresh c i).
Proof. constructor; pj; intros; congruence. Qed.
Lemma kick_same o : o_id (fst (kick o)) = o_id o /\ o_sets (fst (kick o)) = o_sets o /\ o_adrs (fst (kick o)) = o_adrs o.
Proof. unfold kick. destruct (_ && _); repeat split. Qed.
Lemma J_kick o : J o -> J (fst (kick o)).
Proof.
  intros [A B C]. unfold kick. destruct (o_up o && negb (o_sending o) && negb (length (o_sendb o) =? 0)) eqn:E; [|constructor; assumption].
  constructor; pj; [exact A|exact B|]. intros F. cbn [fst] in F. change (o_sendb o = []) in F. rewrite F in E. rewrite andb_false_r in E. discriminate E.
Qed.
Lemma J_up o : J o -> J (fst (goes_up o)).
Proof.
  intros [A B C]. unfold goes_up. destruct (kick _) as [o2 e] eqn:K. cbn [fst].
  replace o2 with (fst (kick (with_life o (o_need o) true true false false (o_obs o) true false (o_timer o) (o_unp o) (o_in o) (o_held o)))) by (rewrite K; reflexivity).
  apply J_kick. constructor; pj; [exact A|intros _; split; [reflexivity|right; left; reflexivity]|exact C].
Qed.
Lemma J_late o : J o -> J (fst (late_up o)).
Proof.
  intros [A B C]. unfold late_up. destruct (kick _) as [o2 e] eqn:K. cbn [fst].
  replace o2 with (fst (kick (with_life o (o_need o) true false (o_closing o) false (o_obs o) true false (o_timer o) (o_unp o) (o_in o) (o_held o)))) by (rewrite K; reflexivity).
  apply J_kick. constructor; pj; [exact A|discriminate|exact C].
Qed.
Lemma J_start c o : J o -> J (fst (start c o)).
Proof.
  intros H. unfold start. destruct (u_kind c).
  - apply J_up. exact H.
  - destruct H as [A B C]. constructor; cbn [fst]; pj; [exact A|intros _; split; [reflexivity|left; reflexivity]|exact C].
  - destruct (goes_up o) as [o1 e] eqn:G. cbn [fst]. replace o1 with (fst (goes_up o)) by (rewrite G; reflexivity). apply J_up. exact H.
Qed.
Lemma J_step c o a o' e : ostep c o a = Some (o', e) -> J o -> J o'.
Proof.
  intros H I. assert (I0 := I). destruct I as [A B C].
  destruct a; cbn [ostep] in H.
  - destruct (o_in o || o_held o); [|discriminate H]. destruct (_ <? _); [|injection H as <- <-; constructor; assumption].
    destruct (kick _) as [o1 e1] eqn:K. injection H as <- <-. replace o1 with (fst (kick (with_out o (o_sendb o ++ [(s_pack (o_sets o), m)]) (o_flight o) (o_sending o) (o_nsent o)))) by (rewrite K; reflexivity).
    apply J_kick. constructor; assumption.
  - destruct (0 <? length (o_flight o)); [|discriminate H]. destruct ok.
    + destruct (0 <? length (o_sendb o)) eqn:L; injection H as <- <-; constructor; pj; try assumption; try reflexivity.
      intros F. rewrite F in L. discriminate L.
    + injection H as <- <-. constructor; pj; try assumption; reflexivity.
  - destruct (o_read o) eqn:R; [|discriminate H].
    destruct (cut (o_unp o) d) as [ms r]. injection H as <- <-. destruct (_ && _); constructor; pj; try assumption; try reflexivity; intros S; destruct (B S) as [B1 B2]; (split; [exact B1|]); destruct (_ <? _); cbn [negb]; auto.
  - destruct (o_read o); [|discriminate H]. injection H as <- <-. destruct (o_started o) eqn:S; constructor; pj; try assumption; try reflexivity; congruence.
  - destruct (o_paused o && _) eqn:P; [|discriminate H]. apply andb_true_iff in P as [P _]. injection H as <- <-. constructor; pj; try assumption; try reflexivity. intros S. destruct (B S). split; auto.
  - destruct (o_posted o); [discriminate H|]. destruct (if o_disp o then _ else _) as [[m r]|]; [destruct ok|]; injection H as <- <-; constructor; pj; assumption.
  - destruct (o_timer o); [|discriminate H]. injection H as <- <-. constructor; pj; assumption.
  - destruct (o_conn o) eqn:CN; [|discriminate H]. destruct (o_started o) eqn:S.
    + destruct ok.
      * injection H as H. assert (Z : o' = fst (goes_up o)) by (rewrite H; reflexivity). rewrite Z. apply J_up. exact I0.
      * destruct (o_need o); injection H as <- <-; [exact I0|constructor; pj; try assumption; congruence].
    + destruct ok; [injection H as H; assert (Z : o' = fst (late_up o)) by (rewrite H; reflexivity); rewrite Z; apply J_late; exact I0|].
      injection H as <- <-. constructor; pj; try assumption. congruence.
  - destruct (o_started o && _); [|discriminate H]. injection H as <- <-. constructor; pj; try assumption. congruence.
  - destruct (o_closing o && _ && _ && _ && _); [|discriminate H].
    set (o1 := with_life o (o_need o) _ false false false true false false false [] _ _) in *.
    assert (J1 : J o1) by (constructor; unfold o1; pj; try assumption; congruence).
    destruct (o_need o); [|injection H as <- <-; exact J1]. destruct (start c o1) as [o2 e2] eqn:ST. injection H as <- <-.
    replace o2 with (fst (start c o1)) by (rewrite ST; reflexivity). apply J_start. exact J1.
  - destruct (_ || _); [|discriminate H]. injection H as <- <-. constructor; pj; assumption.
  - destruct (_ || _); [|discriminate H]. injection H as <- <-. constructor; assumption.
  - destruct (o_held o); [|discriminate H]. injection H as <- <-. constructor; pj; assumption.
Qed.

(** after reset an object that can be used again is a new one but for settings and addresses (and, unless it is a client, for its wish
    to connect again, which is always "no") *)
Lemma reset_fresh c o i : J o -> reusable o = true -> reset c o i = with_sets (fresh c i) (o_sets o) (o_adrs o).
Proof.
  intros [A B C] R. unfold reusable, busy in R. rewrite !andb_true_iff, !negb_true_iff, !orb_false_iff in R.
  destruct R as ((((R1 & R2) & R3) & R4) & ((((((H1 & H2) & H3) & H4) & H5) & H6) & H7)).
  assert (S : o_started o = false). { destruct (o_started o) eqn:S; [|reflexivity]. destruct (B eq_refl) as [_ [X|[X|X]]]; congruence. }
  assert (P : o_posted o = 0) by (apply Nat.ltb_ge in H6; lia).
  unfold reset, with_sets, fresh. pj. rewrite A, S, P, H1, H2, H3. destruct (u_kind c); rewrite ?R4; reflexivity.
Qed.

(** ** events of a step belong to the object *)
Definition mine (i : nat) (l : list uev) : bool := forallb (fun e => ev_id e =? i) l.
Lemma kick_mine o : mine (o_id o) (snd (kick o)) = true.
Proof. unfold kick. destruct (_ && _); cbn; rewrite ?Nat.eqb_refl; reflexivity. Qed.
Lemma up_mine o : mine (o_id o) (snd (goes_up o)) = true.
Proof.
  unfold goes_up. set (o1 := with_life o _ _ _ _ _ _ _ _ _ _ _ _). assert (K := kick_mine o1). destruct (kick o1) as [o2 e]. cbn [snd] in *. change (o_id o1) with (o_id o) in K.
  cbn [mine forallb ev_id]. rewrite Nat.eqb_refl. exact K.
Qed.
Lemma late_mine o : mine (o_id o) (snd (late_up o)) = true.
Proof.
  unfold late_up. set (o1 := with_life o _ _ _ _ _ _ _ _ _ _ _ _). assert (K := kick_mine o1). destruct (kick o1) as [o2 e]. cbn [snd] in *. change (o_id o1) with (o_id o) in K.
  cbn [mine forallb ev_id]. rewrite Nat.eqb_refl. exact K.
Qed.
Lemma late_id o : o_id (fst (late_up o)) = o_id o.
Proof. unfold late_up. set (o1 := with_life o _ _ _ _ _ _ _ _ _ _ _ _). destruct (kick_same o1) as [K _]. destruct (kick o1). cbn [fst] in *. exact K. Qed.
Lemma start_mine c o : mine (o_id o) (snd (start c o)) = true.
Proof.
  unfold start. assert (U := up_mine o). destruct (u_kind c); [exact U|cbn; rewrite Nat.eqb_refl; reflexivity|].
  destruct (goes_up o) as [o1 e]. cbn [snd] in *. cbn [mine forallb ev_id]. rewrite Nat.eqb_refl. exact U.
Qed.
Lemma up_id o : o_id (fst (goes_up o)) = o_id o.
Proof. unfold goes_up. set (o1 := with_life o _ _ _ _ _ _ _ _ _ _ _ _). destruct (kick_same o1) as [K _]. destruct (kick o1). cbn [fst] in *. exact K. Qed.
Lemma start_id c o : o_id (fst (start c o)) = o_id o.
Proof. unfold start. assert (U := up_id o). destruct (u_kind c); [exact U|reflexivity|]. destruct (goes_up o). exact U. Qed.
Lemma step_mine c o a o' e : ostep c o a = Some (o', e) -> o_id o' = o_id o /\ mine (o_id o) e = true.
Proof.
  intros H. assert (R := Nat.eqb_refl (o_id o)). destruct a; cbn [ostep] in H.
  - destruct (o_in o || o_held o); [|discriminate H]. destruct (_ <? _); [|injection H as <- <-; cbn; rewrite R; auto].
    set (o1 := with_out o _ _ _ _) in H. destruct (kick_same o1) as [K _]. assert (M := kick_mine o1). destruct (kick o1) as [o2 e2]. injection H as <- <-. cbn [fst snd] in *.
    split; [exact K|]. change (o_id o1) with (o_id o) in M. cbn [mine forallb ev_id]. rewrite R. exact M.
  - destruct (0 <? length (o_flight o)); [|discriminate H]. destruct ok; [destruct (0 <? length (o_sendb o))|]; injection H as <- <-; cbn; rewrite R; auto.
  - destruct (o_read o); [|discriminate H]. destruct (cut (o_unp o) d) as [ms r]. injection H as <- <-. cbn. rewrite R. destruct (_ && _); auto.
  - destruct (o_read o); [|discriminate H]. injection H as <- <-. destruct (o_started o); auto.
  - destruct (_ && _); [|discriminate H]. injection H as <- <-. auto.
  - destruct (o_posted o); [discriminate H|]. destruct (if o_disp o then _ else _) as [[m r]|]; [destruct ok|]; injection H as <- <-; cbn; rewrite ?R; auto.
  - destruct (o_timer o); [|discriminate H]. injection H as <- <-. auto.
  - destruct (o_conn o); [|discriminate H]. destruct (o_started o); [destruct ok|].
    + injection H as H. assert (U1 := up_id o). assert (U2 := up_mine o). rewrite H in U1, U2. auto.
    + destruct (o_need o); injection H as <- <-; cbn; rewrite ?R; auto.
    + destruct ok; [injection H as H; assert (U1 := late_id o); assert (U2 := late_mine o); rewrite H in U1, U2; auto|]. injection H as <- <-. auto.
  - destruct (_ && _); [|discriminate H]. injection H as <- <-. auto.
  - destruct (o_closing o && _ && _ && _ && _); [|discriminate H].
    set (o1 := with_life o _ _ _ _ _ _ _ _ _ _ _ _) in *. destruct (o_need o); [|injection H as <- <-; cbn; rewrite R; auto].
    assert (U1 := start_id c o1). assert (U2 := start_mine c o1). destruct (start c o1) as [o2 e2]. injection H as <- <-. cbn [fst snd] in *. split; [exact U1|].
    change (o_id o1) with (o_id o) in U2. cbn [mine forallb ev_id]. rewrite R. exact U2.
  - destruct (_ || _); [|discriminate H]. injection H as <- <-. cbn. rewrite R. auto.
  - destruct (_ || _); [|discriminate H]. injection H as <- <-. cbn. rewrite R. auto.
  - destruct (o_held o); [|discriminate H]. injection H as <- <-. auto.
Qed.

(** ** the pool *)
Lemma look_split i l a o b : look i l = Some (a, o, b) -> l = a ++ o :: b /\ o_id o = i.
Proof.
  revert a. induction l as [|x l IH]; intros a H; cbn [look] in H; [discriminate H|]. destruct (o_id x =? i) eqn:E.
  - injection H as <- <- <-. apply Nat.eqb_eq in E. auto.
  - destruct (look i l) as [[[a' o'] b']|]; [|discriminate H]. injection H as <- <- <-. destruct (IH a' eq_refl) as [-> E2]. auto.
Qed.
Lemma take_in {A} k (l : list A) x r : take_nth k l = Some (x, r) -> In x l /\ forall y, In y r -> In y l.
Proof.
  revert k r. induction l as [|z l IH]; intros k r H; [cbn in H; destruct k; discriminate H|]. destruct k; cbn [take_nth] in H.
  - injection H as <- <-. split; [left; reflexivity|]. intros. right. assumption.
  - destruct (take_nth k l) as [[y r']|] eqn:E; [|discriminate H]. injection H as <- <-. destruct (IH k r' E) as [I1 I2]. split; [right; exact I1|].
    intros y' [->|Y]; [left; reflexivity|right; apply I2; exact Y].
Qed.
Lemma NoDup_snoc {A} (l : list A) x : NoDup l -> ~ In x l -> NoDup (l ++ [x]).
Proof.
  induction l as [|y l IH]; intros N H; cbn [app]; [constructor; [intros []|constructor]|]. inversion N; subst. constructor.
  - intros IN. apply in_app_or in IN as [IN|[<-|[]]]; [contradiction|]. apply H. left. reflexivity.
  - apply IH; [assumption|]. intros IN. apply H. right. exact IN.
Qed.
(** [P] holds of every object at all times; [R] relates every object in use to what a monitor knows about it, and [Ok] holds of the
    monitor of every id *)
Section Mon.
Variable c : ucfg.
Variable good : uact -> bool.
Variable P : obj -> Prop.
Variable S : Type.
Variable step : nat -> S -> uev -> S.
Variable init : S.
Variable R : S -> obj -> Prop.
Variable Ok : S -> Prop.
Definition born (o : obj) (i : nat) : Prop := o = fresh c i \/ (u_reuse c = true /\ exists o0, P o0 /\ reusable o0 = true /\ o = reset c o0 i).
Definition made (f : form) (o : obj) : obj := with_sets o (o_sets o) (apply_form (u_kind c) f (o_adrs o)).
Hypothesis frame : forall i s e, ev_id e <> i -> step i s e = s.
Hypothesis P_add : forall o i f k, born o i -> good (UAdd k f) = true -> P (fst (start c (made f o))).
Hypothesis P_step : forall i o a o' e, ostep c o a = Some (o', e) -> good (UObj i a) = true -> P o -> P o'.
Hypothesis R_add : forall o i f k, born o i -> good (UAdd k f) = true -> R (fold_left (step i) (EAdd i f :: snd (start c (made f o))) init) (fst (start c (made f o))).
Hypothesis R_step : forall i s o a o' e, ostep c o a = Some (o', e) -> good (UObj i a) = true -> P o -> R s o -> R (fold_left (step (o_id o)) e s) o'.
Hypothesis R_ok : forall s o, R s o -> Ok s.
Hypothesis ok_init : Ok init.
Definition mn (i : nat) (tr : list uev) : S := fold_left (step i) tr init.
Record Inv (s : ust) (tr : list uev) : Prop := {
  v_act : forall o, In o (us_act s) -> P o /\ R (mn (o_id o) tr) o /\ o_id o <= us_cur s;
  v_idle : forall o, In o (us_idle s) -> P o /\ reusable o = true;
  v_nodup : NoDup (map o_id (us_act s));
  v_ids : forall e, In e tr -> ev_id e <= us_cur s;
  v_ok : forall i, Ok (mn i tr)
}.
Lemma fold_frame i l s : (forall e, In e l -> ev_id e <> i) -> fold_left (step i) l s = s.
Proof. revert s. induction l as [|e l IH]; intros s H; [reflexivity|]. cbn [fold_left]. rewrite frame by (apply H; left; reflexivity). apply IH. intros. apply H. right. assumption. Qed.
Lemma mine_in i l e : mine i l = true -> In e l -> ev_id e = i.
Proof. unfold mine. rewrite forallb_forall. intros H I. apply Nat.eqb_eq. apply H. exact I. Qed.
Lemma born_create k s tr o r : create c k s = Some (o, r) -> Inv s tr -> born o (Datatypes.S (us_cur s)) /\ (forall x, In x r -> P x /\ reusable x = true) /\ o_id o = Datatypes.S (us_cur s).
Proof.
  intros H I. unfold create in H. destruct (u_reuse c) eqn:U; [|injection H as <- <-; split; [left; reflexivity|split; [exact (v_idle _ _ I)|reflexivity]]].
  destruct (us_idle s) as [|x l] eqn:E; [injection H as <- <-; split; [left; reflexivity|split; [intros ? []|reflexivity]]|].
  rewrite <- E in *. clear E. destruct (take_nth k (us_idle s)) as [[o1 r1]|] eqn:T; [|discriminate H]. injection H as <- <-. apply take_in in T as [T1 T2].
  destruct (v_idle _ _ I _ T1) as [B1 B2]. split; [right; split; [exact U|exists o1; auto]|]. split; [|reflexivity]. intros y Y. apply (v_idle _ _ I). apply T2. exact Y.
Qed.
Lemma Inv_step s a s' e tr : ustep c s a = Some (s', e) -> good a = true -> Inv s tr -> Inv s' (tr ++ e).
Proof.
  intros H G I. destruct a as [k f|i x]; cbn [ustep] in H.
  - destruct (create c k s) as [[o r]|] eqn:C; [|discriminate H]. destruct (born_create _ _ _ _ _ C I) as (B & BR & ID).
    fold (made f o) in H. assert (PA := P_add o _ f k B G). assert (RA := R_add o _ f k B G). assert (SM := start_mine c (made f o)). assert (SI := start_id c (made f o)).
    destruct (start c (made f o)) as [o2 e2] eqn:ST. injection H as <- <-. cbn [fst snd] in *. change (o_id (made f o)) with (o_id o) in *. rewrite ID in *.
    set (n := Datatypes.S (us_cur s)) in *.
    assert (NEW : mn n tr = init). { apply fold_frame. intros x IN. apply (v_ids _ _ I) in IN. unfold n. lia. }
    assert (EV : forall x, In x (EAdd n f :: e2) -> ev_id x = n). { intros x [<-|IN]; [reflexivity|]. exact (mine_in _ _ _ SM IN). }
    assert (OLD : forall j, j <> n -> mn j (tr ++ EAdd n f :: e2) = mn j tr). { intros j N. unfold mn. rewrite fold_left_app. apply fold_frame. intros x IN. rewrite (EV x IN). auto. }
    assert (NW : mn n (tr ++ EAdd n f :: e2) = fold_left (step n) (EAdd n f :: e2) init). { unfold mn. rewrite fold_left_app. fold (mn n tr). rewrite NEW. reflexivity. }
    constructor; cbn [us_act us_idle us_cur].
    + intros y IN. apply in_app_or in IN as [IN|[<-|[]]].
      * destruct (v_act _ _ I _ IN) as (A1 & A2 & A3). split; [exact A1|]. rewrite OLD by (unfold n; lia). split; [exact A2|unfold n; lia].
      * split; [exact PA|]. rewrite SI, NW. split; [exact RA|reflexivity].
    + exact BR.
    + rewrite map_app. cbn [map]. rewrite SI. apply NoDup_snoc; [exact (v_nodup _ _ I)|].
      intros IN. apply in_map_iff in IN as (y & E1 & E2). destruct (v_act _ _ I _ E2) as (_ & _ & L). rewrite E1 in L. unfold n in L. lia.
    + intros y IN. apply in_app_or in IN as [IN|IN]; [apply (v_ids _ _ I) in IN; unfold n; lia|]. rewrite (EV y IN). reflexivity.
    + intros j. destruct (Nat.eq_dec j n) as [->|N]; [rewrite NW; exact (R_ok _ _ RA)|]. rewrite OLD by exact N. apply (v_ok _ _ I).
  - destruct (look i (us_act s)) as [[[l o] r]|] eqn:L; [|discriminate H]. apply look_split in L as [L ID]. destruct (ostep c o x) as [[o1 e1]|] eqn:OS; [|discriminate H]. injection H as <- <-.
    assert (INo : In o (us_act s)) by (rewrite L; apply in_or_app; right; left; reflexivity). destruct (v_act _ _ I _ INo) as (A1 & A2 & A3).
    destruct (step_mine _ _ _ _ _ OS) as [ID1 M1]. assert (P1 := P_step i _ _ _ _ OS G A1). assert (R1 := R_step i _ _ _ _ _ OS G A1 A2).
    assert (NW : mn (o_id o) (tr ++ e1) = fold_left (step (o_id o)) e1 (mn (o_id o) tr)) by (unfold mn; apply fold_left_app).
    assert (OLD : forall j, j <> o_id o -> mn j (tr ++ e1) = mn j tr). { intros j N. unfold mn. rewrite fold_left_app. apply fold_frame. intros y IN. rewrite (mine_in _ _ _ M1 IN). auto. }
    assert (ND := v_nodup _ _ I). rewrite L, map_app in ND. cbn [map] in ND. assert (ND2 := NoDup_remove _ _ _ ND). destruct ND2 as [ND2 ND3].
    assert (OTH : forall y, In y (l ++ r) -> P y /\ R (mn (o_id y) (tr ++ e1)) y /\ o_id y <= us_cur s).
    { intros y IN. assert (N : o_id y <> o_id o). { intros E. apply ND3. rewrite <- map_app, <- E. apply in_map. exact IN. }
      assert (IN2 : In y (us_act s)) by (rewrite L; apply in_app_or in IN as [IN|IN]; apply in_or_app; [left|right; right]; exact IN).
      rewrite OLD by exact N. apply (v_act _ _ I). exact IN2. }
    assert (IDS : forall y, In y (tr ++ e1) -> ev_id y <= us_cur s). { intros y IN. apply in_app_or in IN as [IN|IN]; [apply (v_ids _ _ I); exact IN|]. rewrite (mine_in _ _ _ M1 IN). exact A3. }
    assert (OKS : forall j, Ok (mn j (tr ++ e1))). { intros j. destruct (Nat.eq_dec j (o_id o)) as [->|N]; [rewrite NW; exact (R_ok _ _ R1)|]. rewrite OLD by exact N. apply (v_ok _ _ I). }
    destruct (reusable o1) eqn:RU; constructor; cbn [us_act us_idle us_cur]; try assumption.
    + intros y IN. apply in_app_or in IN as [IN|[<-|[]]]; [apply (v_idle _ _ I); exact IN|auto].
    + rewrite map_app. exact ND2.
    + intros y IN. apply in_app_or in IN as [IN|[<-|IN]]; [apply OTH; apply in_or_app; auto| |apply OTH; apply in_or_app; auto]. split; [exact P1|]. rewrite ID1, NW. auto.
    + exact (v_idle _ _ I).
    + rewrite map_app. cbn [map]. rewrite ID1. exact ND.
Qed.
Lemma Inv_run l : forall s tr s' t, urun c s l = Some (s', t) -> forallb good l = true -> Inv s tr -> Inv s' (tr ++ t).
Proof.
  induction l as [|a l IH]; intros s tr s' t H G I; cbn [urun] in H; [injection H as <- <-; rewrite app_nil_r; exact I|].
  cbn [forallb] in G. apply andb_true_iff in G as [G1 G2]. destruct (ustep c s a) as [[s1 t1]|] eqn:E; [|discriminate H]. destruct (urun c s1 l) as [[s2 t2]|] eqn:E2; [|discriminate H].
  injection H as <- <-. rewrite app_assoc. exact (IH _ _ _ _ E2 G2 (Inv_step _ _ _ _ _ E G1 I)).
Qed.
Lemma Inv_init : Inv u0 [].
Proof. constructor; cbn; try (intros ? []); [constructor|]. intros _. exact ok_init. Qed.
Lemma Inv_all l s t : urun c u0 l = Some (s, t) -> forallb good l = true -> Inv s t.
Proof. intros H G. exact (Inv_run l u0 [] s t H G Inv_init). Qed.
End Mon.

(** ** C132: what belongs to a socket *)
Record M (m : mon) (o : obj) : Prop := {
  mm1 : m_rest m = o_unp o;
  mm2 : m_recv m = m_hand m ++ (if o_disp o then [o_hold o] else []) ++ o_recvb o;
  mm3 : m_que m = m_wr m ++ map snd (o_sendb o);
  mm4 : m_fl m = length (o_flight o);
  mm5 : m_ns m = o_nsent o;
  mm6 : length (m_recv m) = o_nrecv o;
  mm7 : m_true m = true
}.
Lemma mstep_frame i m e : ev_id e <> i -> mstep i m e = m.
Proof. intros H. unfold mstep. apply Nat.eqb_neq in H. rewrite H. reflexivity. Qed.
Ltac pm := cbn [m_rest m_recv m_hand m_que m_wr m_fl m_ns m_true].
Lemma mstep_eq i m e : ev_id e = i -> mstep i m e = mstep (ev_id e) m e.
Proof. intros <-. reflexivity. Qed.
Lemma M_kick m o : M m o -> J o -> M (fold_left (mstep (o_id o)) (snd (kick o)) m) (fst (kick o)).
Proof.
  intros H JO. unfold kick. destruct (o_up o && negb (o_sending o) && negb (length (o_sendb o) =? 0)) eqn:E; [|exact H].
  rewrite !andb_true_iff, !negb_true_iff in E. destruct E as [[_ E] _].
  destruct H as [A1 A2 A3 A4 A5 A6 A7]. cbn [fst snd fold_left]. unfold mstep. cbn [ev_id]. rewrite Nat.eqb_refl. cbn [negb].
  constructor; pm; pj; try assumption; [|reflexivity]. cbn [map]. rewrite app_nil_r. exact A3.
Qed.
Lemma M_up m o : M m o -> J o -> M (fold_left (mstep (o_id o)) (snd (goes_up o)) m) (fst (goes_up o)).
Proof.
  intros H JO. unfold goes_up. set (o1 := with_life o _ _ _ _ _ _ _ _ _ _ _ _). assert (M1 : M m o1) by (destruct H; constructor; assumption).
  assert (J1 : J o1) by (destruct JO as [A B C]; constructor; unfold o1; pj; try assumption; intros _; split; [reflexivity|right; left; reflexivity]).
  assert (K := M_kick m o1 M1 J1). destruct (kick o1) as [o2 e]. cbn [fst snd fold_left] in *. change (o_id o1) with (o_id o) in K.
  unfold mstep at 2. cbn [ev_id]. destruct (negb _); exact K.
Qed.
Lemma M_late m o : M m o -> J o -> M (fold_left (mstep (o_id o)) (snd (late_up o)) m) (fst (late_up o)).
Proof.
  intros H JO. unfold late_up. set (o1 := with_life o _ _ _ _ _ _ _ _ _ _ _ _). assert (M1 : M m o1) by (destruct H; constructor; assumption).
  assert (J1 : J o1) by (destruct JO as [A B C]; constructor; unfold o1; pj; try assumption; discriminate).
  assert (K := M_kick m o1 M1 J1). destruct (kick o1) as [o2 e]. cbn [fst snd fold_left] in *. change (o_id o1) with (o_id o) in K.
  unfold mstep at 2. cbn [ev_id]. destruct (negb _); exact K.
Qed.
Lemma M_start c m o : M m o -> J o -> M (fold_left (mstep (o_id o)) (snd (start c o)) m) (fst (start c o)).
Proof.
  intros H JO. unfold start. destruct (u_kind c).
  - apply M_up; assumption.
  - cbn [fst snd fold_left]. unfold mstep. cbn [ev_id]. destruct (negb _); destruct H; constructor; assumption.
  - assert (U := M_up m o H JO). destruct (goes_up o) as [o1 e]. cbn [fst snd fold_left] in *. unfold mstep at 2. cbn [ev_id]. destruct (negb _); exact U.
Qed.
Lemma M_step c m o a o' e : ostep c o a = Some (o', e) -> J o -> M m o -> M (fold_left (mstep (o_id o)) e m) o'.
Proof.
  intros H JO MO. assert (M0 := MO). destruct MO as [A1 A2 A3 A4 A5 A6 A7]. assert (RF := Nat.eqb_refl (o_id o)).
  destruct a as [q|ok|d| | |ok| |ok|rr| |xs| |]; cbn [ostep] in H.
  - destruct (o_in o || o_held o); [|discriminate H]. destruct (_ <? _).
    + set (o1 := with_out o _ _ _ _) in H. assert (K := M_kick (mstep (o_id o) m (EQueued (o_id o) q)) o1).
      destruct (kick o1) as [o2 e2]. injection H as <- <-. cbn [fold_left]. apply K.
      * unfold mstep. cbn [ev_id]. rewrite RF. cbn [negb]. unfold o1. constructor; pm; pj; try assumption. rewrite map_app, app_assoc, A3. reflexivity.
      * destruct JO as [B1 B2 B3]. constructor; assumption.
    + injection H as <- <-. cbn [fold_left]. unfold mstep. cbn [ev_id]. rewrite RF. exact M0.
  - destruct (0 <? length (o_flight o)); [|discriminate H]. destruct ok; [destruct (0 <? length (o_sendb o)) eqn:L|]; injection H as <- <-; cbn [fold_left]; unfold mstep; cbn [ev_id]; rewrite ?RF; cbn [negb];
      constructor; pm; pj; try assumption; try reflexivity; try (cbn [map]; rewrite app_nil_r; exact A3); try (rewrite A5, A4; reflexivity).
    apply Nat.ltb_ge in L. destruct (o_sendb o) as [|x l]; [exact A3|cbn in L; lia].
  - destruct (o_read o); [|discriminate H]. destruct (cut (o_unp o) d) as [ms r] eqn:CT. injection H as <- <-. rewrite (j_temp _ JO). cbn [app].
    cbn [fold_left]. unfold mstep. cbn [ev_id]. rewrite RF. cbn [negb]. rewrite A1, CT.
    destruct (_ && _); constructor; pm; pj; try assumption; try reflexivity; try (rewrite A2, <- !app_assoc; reflexivity); rewrite app_length, A6; reflexivity.
  - destruct (o_read o); [|discriminate H]. injection H as <- <-. cbn [fold_left]. destruct (o_started o); constructor; assumption.
  - destruct (_ && _); [|discriminate H]. injection H as <- <-. constructor; assumption.
  - destruct (o_posted o); [discriminate H|]. destruct (o_disp o) eqn:D.
    + destruct ok; injection H as <- <-; cbn [fold_left]; unfold mstep; cbn [ev_id]; rewrite ?RF; cbn [negb]; constructor; pm; pj; try assumption.
      rewrite A2, <- app_assoc. reflexivity.
    + destruct (o_recvb o) as [|x l] eqn:RB.
      * injection H as <- <-. cbn [fold_left]. constructor; pj; assumption.
      * destruct ok; injection H as <- <-; cbn [fold_left]; unfold mstep; cbn [ev_id]; rewrite ?RF; cbn [negb]; constructor; pm; pj; try assumption.
        rewrite A2, <- app_assoc. reflexivity.
  - destruct (o_timer o); [|discriminate H]. injection H as <- <-. constructor; assumption.
  - destruct (o_conn o); [|discriminate H]. destruct (o_started o); [destruct ok|].
    + injection H as H. assert (U := M_up m o M0 JO). rewrite H in U. exact U.
    + destruct (o_need o); injection H as <- <-; cbn [fold_left]; unfold mstep; cbn [ev_id]; rewrite ?RF; constructor; assumption.
    + destruct ok; [injection H as H; assert (U := M_late m o M0 JO); rewrite H in U; exact U|]. injection H as <- <-. constructor; assumption.
  - destruct (_ && _); [|discriminate H]. injection H as <- <-. constructor; assumption.
  - destruct (o_closing o && _ && _ && _ && _); [|discriminate H].
    set (o1 := with_life o _ _ _ _ _ _ _ _ _ _ _ _) in *.
    assert (M1 : M (mstep (o_id o) m (EDown (o_id o))) o1). { unfold mstep. cbn [ev_id]. rewrite RF. cbn [negb]. unfold o1. constructor; pm; pj; try assumption; reflexivity. }
    destruct (o_need o); [|injection H as <- <-; exact M1].
    assert (J1 : J o1) by (destruct JO as [B1 B2 B3]; constructor; unfold o1; pj; try assumption; congruence).
    assert (U := M_start c _ _ M1 J1). destruct (start c o1) as [o2 e2]. injection H as <- <-. exact U.
  - destruct (_ || _); [|discriminate H]. injection H as <- <-. cbn [fold_left]. unfold mstep; cbn [ev_id]; rewrite RF. constructor; assumption.
  - destruct (_ || _); [|discriminate H]. injection H as <- <-. cbn [fold_left]. unfold mstep; cbn [ev_id]; rewrite RF. cbn [negb]. constructor; pm; try assumption.
    rewrite A7, A5, A6, !Nat.eqb_refl. reflexivity.
  - destruct (o_held o); [|discriminate H]. injection H as <- <-. constructor; assumption.
Qed.
Lemma born_J c o i : born c J o i -> J o.
Proof. intros [->|(_ & o0 & JO & RU & ->)]; [apply J_fresh|]. rewrite reset_fresh by assumption. destruct (J_fresh c i). constructor; assumption. Qed.
Lemma made_J c f o : J o -> J (made c f o).
Proof. intros [A B C]. constructor; assumption. Qed.
Lemma J_add c o i f : born c J o i -> J (fst (start c (made c f o))).
Proof. intros B. apply J_start, made_J. exact (born_J _ _ _ B). Qed.
Definition ok132 (m : mon) : Prop := (exists r, m_recv m = m_hand m ++ r) /\ (exists q, m_que m = m_wr m ++ q) /\ m_true m = true.
(** Whatever happened to an object before (settings included), a socket handles only messages that arrived on it, writes only messages
    that were given to it, both in order, and its statistics count its own messages. *)
Theorem C132 c l s t i : urun c u0 l = Some (s, t) -> own i t.
Proof.
  intros H. refine (v_ok _ _ _ _ _ _ _ _ (Inv_all c (fun _ => true) J mon mstep m0 M ok132 _ _ _ _ _ _ _ l s t H _) i).
  - exact mstep_frame.
  - intros o j f _ B _. exact (J_add _ _ _ _ B).
  - intros j o a o' e OS _ JO. exact (J_step _ _ _ _ _ OS JO).
  - intros o j f _ B _. cbn [fold_left]. assert (ID : o_id (made c f o) = j). { destruct B as [->|(_ & o0 & _ & _ & ->)]; reflexivity. }
    rewrite <- ID at 1. apply M_start; [|apply made_J; exact (born_J _ _ _ B)]. unfold mstep. cbn [ev_id]. rewrite Nat.eqb_refl. cbn [negb].
    destruct B as [->|(_ & o0 & JO & RU & ->)]; [constructor; reflexivity|]. rewrite reset_fresh by assumption. constructor; reflexivity.
  - intros j m o a o' e OS _ JO MO. exact (M_step _ _ _ _ _ _ OS JO MO).
  - intros m o [A1 A2 A3 A4 A5 A6 A7]. split; [eexists; exact A2|]. split; [eexists; exact A3|exact A7].
  - split; [exists []; reflexivity|]. split; [exists []; reflexivity|reflexivity].
  - apply forallb_forall. reflexivity.
Qed.
Print Assumptions C132.
(** two lives of one object: the first peer's unhandled message, unsent message and half message do not reach the second one *)
Definition ex_cfg : ucfg := mk_u KServer true (mk_ep 1 80) true false 100 100 5.
Definition b1 : byte := Byte.x61. Definition b2 : byte := Byte.x62. Definition b0 : byte := Byte.x00.
Definition life1 : list uact := [UAdd 0 FNone; UObj 1 (OSend [b1]); UObj 1 (OSend [b1; b1]); UObj 1 (ORecv [b1; b0; b1; b1; b0; b2]); UObj 1 (ODispatch false);
  UObj 1 OReadErr; UObj 1 (OWritten false); UObj 1 OClosed].
Definition life2 : list uact := [UAdd 0 FNone; UObj 2 (OSend [b2]); UObj 2 (ORecv [b2; b0]); UObj 2 (ODispatch true); UObj 2 (OWritten true); UObj 2 OAsk].
Example C132_example : exists s t, urun ex_cfg u0 (life1 ++ UObj 1 ORelease :: life2) = Some (s, t) /\ us_idle s = [] /\ us_cur s = 2 /\
  m_recv (mon_of 1 t) = [[b1]; [b1; b1]] /\ m_hand (mon_of 1 t) = [] /\ m_que (mon_of 1 t) = [[b1]; [b1; b1]] /\ m_wr (mon_of 1 t) = [[b1]] /\ m_rest (mon_of 1 (firstn 9 t)) = [b2] /\
  m_hand (mon_of 2 t) = [[b2]] /\ m_wr (mon_of 2 t) = [[b2]] /\ In (EStat 2 1 1) t.
Proof. do 2 eexists. split; [vm_compute; reflexivity|]. vm_compute. tauto. Qed.

Lemma writing_fl i t : writing i t = m_fl (mon_of i t).
Proof.
  unfold writing, mon_of. change 0 with (m_fl m0). generalize m0. induction t as [|e t IH]; intros m; [reflexivity|]. cbn [fold_left]. rewrite <- IH. f_equal.
  unfold mstep. destruct e; cbn [ev_id write_step]; try (destruct (i0 =? i); cbn [negb]; reflexivity).
  - destruct (i0 =? i); cbn [negb]; [|reflexivity]. destruct (cut (m_rest m) d). reflexivity.
  - destruct (i0 =? i); cbn [negb]; [|reflexivity]. destruct ok; reflexivity.
Qed.
Lemma urun_app c l1 l2 : forall s s1 t1, urun c s l1 = Some (s1, t1) ->
  urun c s (l1 ++ l2) = match urun c s1 l2 with Some (s2, t2) => Some (s2, t1 ++ t2) | None => None end.
Proof.
  induction l1 as [|a l1 IH]; intros s s1 t1 H; cbn [urun app] in *; [injection H as <- <-; destruct (urun c s l2) as [[? ?]|]; reflexivity|].
  destruct (ustep c s a) as [[s2 t2]|]; [|discriminate H]. destruct (urun c s2 l1) as [[s3 t3]|] eqn:E; [|discriminate H]. injection H as <- <-.
  rewrite (IH _ _ _ E). destruct (urun c s3 l2) as [[? ?]|]; [rewrite app_assoc|]; reflexivity.
Qed.
(** a socket one of whose writes has not ended is never given away: its object is in use, and the write can end *)
Definition InvJ := Inv J mon mstep m0 M ok132.
Lemma InvJ_step c s a s' e tr : ustep c s a = Some (s', e) -> InvJ s tr -> InvJ s' (tr ++ e).
Proof.
  intros H I. refine (Inv_step c (fun _ => true) J mon mstep m0 M ok132 _ _ _ _ _ _ s a s' e tr H eq_refl I).
  - exact mstep_frame.
  - intros o j f _ B _. exact (J_add _ _ _ _ B).
  - intros j o a1 o' e1 OS _ JO. exact (J_step _ _ _ _ _ OS JO).
  - intros o j f _ B _. cbn [fold_left]. assert (ID : o_id (made c f o) = j). { destruct B as [->|(_ & o0 & _ & _ & ->)]; reflexivity. }
    rewrite <- ID at 1. apply M_start; [|apply made_J; exact (born_J _ _ _ B)]. unfold mstep. cbn [ev_id]. rewrite Nat.eqb_refl. cbn [negb].
    destruct B as [->|(_ & o0 & JO & RU & ->)]; [constructor; reflexivity|]. rewrite reset_fresh by assumption. constructor; reflexivity.
  - intros j m o a1 o' e1 OS _ JO MO. exact (M_step _ _ _ _ _ _ OS JO MO).
  - intros m o [A1 A2 A3 A4 A5 A6 A7]. split; [eexists; exact A2|]. split; [eexists; exact A3|exact A7].
Qed.
Definition kept (s : ust) (tr : list uev) : Prop := forall j, ~ In j (map o_id (us_act s)) -> m_fl (mon_of j tr) = 0.
Lemma kept_step c s a s' e tr : ustep c s a = Some (s', e) -> InvJ s tr -> kept s tr -> kept s' (tr ++ e).
Proof.
  intros H I K j N. unfold mon_of. rewrite fold_left_app. fold (mon_of j tr). destruct a as [k f|i x]; cbn [ustep] in H.
  - destruct (create c k s) as [[o r]|] eqn:C; [|discriminate H]. fold (made c f o) in H. assert (SM := start_mine c (made c f o)). assert (SI := start_id c (made c f o)).
    destruct (start c (made c f o)) as [o2 e2]. injection H as <- <-. cbn [fst snd us_act] in *. change (o_id (made c f o)) with (o_id o) in *.
    rewrite map_app in N. cbn [map] in N. rewrite SI in N.
    rewrite (fold_frame mon mstep mstep_frame); [apply K; intros IN; apply N; apply in_or_app; left; exact IN|].
    intros y [<-|IN] E; [|rewrite (mine_in _ _ _ SM IN) in E]; apply N; apply in_or_app; right; left; exact E.
  - destruct (look i (us_act s)) as [[[l o] r]|] eqn:L; [|discriminate H]. apply look_split in L as [L ID]. destruct (ostep c o x) as [[o1 e1]|] eqn:OS; [|discriminate H]. injection H as <- <-.
    assert (INo : In o (us_act s)) by (rewrite L; apply in_or_app; right; left; reflexivity). destruct (v_act _ _ _ _ _ _ _ _ I _ INo) as (A1 & A2 & _).
    destruct (step_mine _ _ _ _ _ OS) as [ID1 M1]. assert (R1 := M_step _ _ _ _ _ _ OS A1 A2). destruct (Nat.eq_dec j (o_id o)) as [->|NE].
    + destruct (reusable o1) eqn:RU; cbn [us_act] in N.
      * unfold mon_of. unfold mn in R1. rewrite (mm4 _ _ R1). unfold reusable, busy in RU. rewrite !andb_true_iff, !negb_true_iff, !orb_false_iff in RU.
        destruct RU as (_ & _ & F). apply Nat.ltb_ge in F. lia.
      * exfalso. apply N. rewrite map_app. cbn [map]. rewrite ID1. apply in_or_app. right. left. reflexivity.
    + rewrite (fold_frame mon mstep mstep_frame); [|intros y IN E; rewrite (mine_in _ _ _ M1 IN) in E; congruence].
      apply K. rewrite L, map_app. cbn [map]. intros IN. apply N. destruct (reusable o1); cbn [us_act]; rewrite map_app; cbn [map]; apply in_app_or in IN as [IN|[IN|IN]]; try congruence;
        apply in_or_app; auto; right; right; exact IN.
Qed.
Lemma kept_run c l : forall s tr s' t, urun c s l = Some (s', t) -> InvJ s tr -> kept s tr -> InvJ s' (tr ++ t) /\ kept s' (tr ++ t).
Proof.
  induction l as [|a l IH]; intros s tr s' t H I K; cbn [urun] in H; [injection H as <- <-; rewrite app_nil_r; split; assumption|].
  destruct (ustep c s a) as [[s1 t1]|] eqn:E; [|discriminate H]. destruct (urun c s1 l) as [[s2 t2]|] eqn:E2; [|discriminate H].
  injection H as <- <-. rewrite app_assoc. exact (IH _ _ _ _ E2 (InvJ_step _ _ _ _ _ _ E I) (kept_step _ _ _ _ _ _ E I K)).
Qed.
Lemma look_some i l : In i (map o_id l) -> exists a o b, look i l = Some (a, o, b).
Proof.
  induction l as [|x l IH]; cbn [map look]; [intros []|]. intros [E|IN]; [rewrite E, Nat.eqb_refl; repeat eexists|].
  destruct (o_id x =? i); [repeat eexists|]. destruct (IH IN) as (a & o & b & ->). repeat eexists.
Qed.
Theorem C132_writes_end c l s t i ok : urun c u0 l = Some (s, t) -> 0 < writing i t ->
  exists s' t', urun c u0 (l ++ [UObj i (OWritten ok)]) = Some (s', t ++ t') /\ In (EWritten i ok) t'.
Proof.
  intros H W. rewrite writing_fl in W. assert (I0 : InvJ u0 []).
  { apply Inv_init. split; [exists []; reflexivity|]. split; [exists []; reflexivity|reflexivity]. }
  destruct (kept_run c l u0 [] s t H I0 (fun _ _ => eq_refl)) as [I K]. cbn [app] in I, K.
  assert (IN : In i (map o_id (us_act s))). { destruct (in_dec Nat.eq_dec i (map o_id (us_act s))) as [IN|N]; [exact IN|]. rewrite (K i N) in W. lia. }
  destruct (look_some _ _ IN) as (a & o & b & L). assert (L1 := L). apply look_split in L1 as [L1 ID]. subst i.
  assert (INo : In o (us_act s)) by (rewrite L1; apply in_or_app; right; left; reflexivity). destruct (v_act _ _ _ _ _ _ _ _ I _ INo) as (_ & A2 & _).
  unfold mn in A2. fold (mon_of (o_id o) t) in A2. rewrite (mm4 _ _ A2) in W. apply Nat.ltb_lt in W.
  assert (X : exists s' t', ustep c s (UObj (o_id o) (OWritten ok)) = Some (s', t') /\ In (EWritten (o_id o) ok) t').
  { cbn [ustep]. rewrite L. cbn [ostep]. rewrite W. destruct ok; [destruct (0 <? length (o_sendb o))|]; do 2 eexists; (split; [reflexivity|left; reflexivity]). }
  destruct X as (s' & t' & X & Y). exists s', t'. split; [|exact Y]. rewrite (urun_app _ _ _ _ _ _ H). cbn [urun]. rewrite X, app_nil_r. reflexivity.
Qed.
Print Assumptions C132_writes_end.
(** a UDP socket writes though it was closed; the application lets go of it, then the write ends *)
Example C132_writes_end_example : exists s t, urun (mk_u KUdp true (mk_ep 1 80) true false 100 100 5) u0
    [UAdd 0 FNone; UObj 1 (OClose false); UObj 1 OReadErr; UObj 1 OClosed; UObj 1 (OSend [b1]); UObj 1 ORelease] = Some (s, t) /\ writing 1 t = 1 /\ us_idle s = [] /\ In (EDown 1) t.
Proof. do 2 eexists. split; [vm_compute; reflexivity|]. vm_compute. tauto. Qed.

(** ** settings and addresses change only when they are set *)
Lemma up_sets o : o_sets (fst (goes_up o)) = o_sets o /\ o_adrs (fst (goes_up o)) = o_adrs o.
Proof. unfold goes_up. set (o1 := with_life o _ _ _ _ _ _ _ _ _ _ _ _). destruct (kick_same o1) as (_ & K1 & K2). destruct (kick o1). cbn [fst] in *. auto. Qed.
Lemma late_sets o : o_sets (fst (late_up o)) = o_sets o /\ o_adrs (fst (late_up o)) = o_adrs o.
Proof. unfold late_up. set (o1 := with_life o _ _ _ _ _ _ _ _ _ _ _ _). destruct (kick_same o1) as (_ & K1 & K2). destruct (kick o1). cbn [fst] in *. auto. Qed.
Lemma start_sets c o : o_sets (fst (start c o)) = o_sets o /\ o_adrs (fst (start c o)) = o_adrs o.
Proof. unfold start. assert (U := up_sets o). destruct (u_kind c); [exact U|split; reflexivity|]. destruct (goes_up o). exact U. Qed.
Lemma step_sets c o a o' e : ostep c o a = Some (o', e) ->
  o_sets o' = match a with OSet x => set_sets x (o_sets o) | _ => o_sets o end /\ o_adrs o' = match a with OSet x => set_adrs x (o_adrs o) | _ => o_adrs o end.
Proof.
  intros H. destruct a as [q|ok|d| | |ok| |ok|rr| |xs| |]; cbn [ostep] in H.
  - destruct (o_in o || o_held o); [|discriminate H]. destruct (_ <? _); [|injection H as <- <-; auto].
    set (o1 := with_out o _ _ _ _) in H. destruct (kick_same o1) as (_ & K1 & K2). destruct (kick o1) as [o2 e2]. injection H as <- <-. auto.
  - destruct (0 <? length (o_flight o)); [|discriminate H]. destruct ok; [destruct (0 <? length (o_sendb o))|]; injection H as <- <-; auto.
  - destruct (o_read o); [|discriminate H]. destruct (cut (o_unp o) d) as [ms r]. injection H as <- <-. destruct (_ && _); auto.
  - destruct (o_read o); [|discriminate H]. injection H as <- <-. destruct (o_started o); auto.
  - destruct (_ && _); [|discriminate H]. injection H as <- <-. auto.
  - destruct (o_posted o); [discriminate H|]. destruct (if o_disp o then _ else _) as [[m r]|]; [destruct ok|]; injection H as <- <-; auto.
  - destruct (o_timer o); [|discriminate H]. injection H as <- <-. auto.
  - destruct (o_conn o); [|discriminate H]. destruct (o_started o); [destruct ok|].
    + injection H as H. assert (U := up_sets o). rewrite H in U. exact U.
    + destruct (o_need o); injection H as <- <-; auto.
    + destruct ok; [injection H as H; assert (U := late_sets o); rewrite H in U; exact U|]. injection H as <- <-. auto.
  - destruct (_ && _); [|discriminate H]. injection H as <- <-. auto.
  - destruct (o_closing o && _ && _ && _ && _); [|discriminate H].
    set (o1 := with_life o _ _ _ _ _ _ _ _ _ _ _ _) in *. destruct (o_need o); [|injection H as <- <-; auto].
    assert (U := start_sets c o1). destruct (start c o1) as [o2 e2]. injection H as <- <-. exact U.
  - destruct (_ || _); [|discriminate H]. injection H as <- <-. auto.
  - destruct (_ || _); [|discriminate H]. injection H as <- <-. auto.
  - destruct (o_held o); [|discriminate H]. injection H as <- <-. auto.
Qed.

(** ** C131: addresses *)
Definition ip_ok (ip : ipt) : bool := match ip with IBad => false | _ => true end.
(** the addresses passed to add_socket are valid *)
Definition valid_form (f : form) : bool := match f with FNone => true | FOne _ a => ip_ok a | FTwo _ a _ b => ip_ok a && ip_ok b end.
Definition valid_add (a : uact) : bool := match a with UAdd _ f => valid_form f | _ => true end.
(** always the same overload of add_socket is used and addresses are given to it only *)
Definition shape (k : kind) (f : form) : nat := match k, f with KServer, _ => 0 | _, FNone => 0 | _, FOne _ _ => 1 | _, FTwo _ _ _ _ => 2 end.
Definition is_adr (x : setting) : bool := match x with SServer _ _ | SLocal _ _ | SPeer _ _ | SConnect => true | _ => false end.
Definition steady (k : kind) (sh : nat) (a : uact) : bool := match a with UAdd _ f => shape k f =? sh | UObj _ (OSet x) => negb (is_adr x) | _ => true end.
Definition C131_statement : Prop := forall c l s t, urun c u0 l = Some (s, t) -> as_asked c t.

Definition cond (w : wish) (e : uev) : Prop :=
  match e with
  | EConnect i from to => w_local w = Some from /\ w_server w = Some to
  | EBind i from to => w_local w = Some from /\ (if w_mode w then to <> None /\ w_peer w = to else to = None)
  | _ => True
  end.
Definition wp (c : ucfg) (i : nat) (s : wish * Prop) (e : uev) : wish * Prop :=
  if ev_id e =? i then (wish_step c i (fst s) e, snd s /\ cond (fst s) e) else s.
Lemma wp_frame c i s e : ev_id e <> i -> wp c i s e = s.
Proof. intros H. unfold wp. apply Nat.eqb_neq in H. rewrite H. reflexivity. Qed.
Lemma wp_snd c i l : forall s, snd (fold_left (wp c i) l s) -> snd s /\ forall a e b, l = a ++ e :: b -> ev_id e = i -> cond (fold_left (wish_step c i) a (fst s)) e.
Proof.
  induction l as [|x l IH]; intros s H; [split; [exact H|]; intros [|? ?] e b E; discriminate E|].
  cbn [fold_left] in H. apply IH in H as [H1 H2]. split.
  - unfold wp in H1. destruct (ev_id x =? i); [exact (proj1 H1)|exact H1].
  - intros [|y a] e b E ID; cbn [app] in E; injection E as E1 E2.
    + subst. cbn [fold_left]. unfold wp in H1. rewrite Nat.eqb_refl in H1. exact (proj2 H1).
    + subst y. cbn [fold_left]. specialize (H2 a e b E2 ID). unfold wp in H2. unfold wish_step at 2. destruct (ev_id x =? i) eqn:EX; cbn [negb fst] in *; [|exact H2].
      unfold wish_step at 2 in H2. rewrite EX in H2. exact H2.
Qed.
Definition agrees (w : wish) (a : adrs) : Prop := w_server w = Some (a_server a) /\ w_local w = Some (a_local a) /\ w_peer w = Some (a_peer a) /\ w_mode w = a_cmode a.
Definition RW (s : wish * Prop) (o : obj) : Prop := agrees (fst s) (o_adrs o) /\ snd s.
Lemma fits_add c i f w : valid_form f = true -> agrees (wish_step c i w (EAdd i f)) (apply_form (u_kind c) f (def_adrs c)).
Proof.
  intros V. unfold wish_step. cbn [ev_id]. rewrite Nat.eqb_refl. cbn [negb]. unfold agrees, def_adrs, any.
  destruct (u_kind c); destruct f as [|p ip|p ip p2 ip2]; cbn [valid_form] in V; try (apply andb_true_iff in V as [V V2]);
    repeat match goal with x : ipt |- _ => destruct x end; try discriminate V; try discriminate V2; repeat split.
Qed.
Lemma set_agrees c i x w a : agrees w a -> agrees (wish_step c i w (ESet i x)) (set_adrs x a).
Proof.
  intros (A & B & C & D). unfold wish_step. cbn [ev_id]. rewrite Nat.eqb_refl. cbn [negb]. unfold agrees.
  destruct x as [n|n|n|n|p ip|p ip|p ip|]; cbn [set_adrs]; try (repeat split; assumption); destruct ip; repeat split; assumption.
Qed.
(** events that have nothing to do with addresses *)
Definition other (e : uev) : bool := match e with EAdd _ _ | ESet _ _ | EConnect _ _ _ | EBind _ _ _ => false | _ => true end.
Lemma other_fold c i o l : forall s, forallb other l = true -> RW s o -> RW (fold_left (wp c i) l s) o.
Proof.
  induction l as [|e l IH]; intros s H R; [exact R|]. cbn [forallb] in H. apply andb_true_iff in H as [H1 H2]. cbn [fold_left]. apply IH; [exact H2|].
  unfold wp. destruct (ev_id e =? i) eqn:E; [|exact R]. destruct R as [R1 R2]. unfold RW, wish_step. cbn [fst snd]. rewrite E. destruct e; try discriminate H1; cbn [negb cond]; auto.
Qed.
Lemma kick_other o : forallb other (snd (kick o)) = true.
Proof. unfold kick. destruct (_ && _); reflexivity. Qed.
Lemma up_other o : forallb other (snd (goes_up o)) = true.
Proof. unfold goes_up. set (o1 := with_life o _ _ _ _ _ _ _ _ _ _ _ _). assert (K := kick_other o1). destruct (kick o1). exact K. Qed.
Lemma late_other o : forallb other (snd (late_up o)) = true.
Proof. unfold late_up. set (o1 := with_life o _ _ _ _ _ _ _ _ _ _ _ _). assert (K := kick_other o1). destruct (kick o1). exact K. Qed.
Lemma RW_adrs s o o' : o_adrs o' = o_adrs o -> RW s o -> RW s o'.
Proof. unfold RW. intros ->. auto. Qed.
Lemma RW_conn c s o : RW s o -> RW (wp c (o_id o) s (EConnect (o_id o) (a_local (o_adrs o)) (a_server (o_adrs o)))) o.
Proof. intros [(A & B & C & D) E]. unfold wp, wish_step. cbn [ev_id]. rewrite Nat.eqb_refl. cbn [negb]. split; cbn [fst snd]; [repeat split; assumption|split; [exact E|split; assumption]]. Qed.
Lemma RW_start c s o : RW s o -> RW (fold_left (wp c (o_id o)) (snd (start c o)) s) (fst (start c o)).
Proof.
  intros R. destruct (start_sets c o) as [_ SA]. apply (RW_adrs _ o _ SA). clear SA. unfold start. destruct (u_kind c).
  - apply other_fold; [apply up_other|exact R].
  - cbn [snd fold_left]. apply RW_conn. exact R.
  - assert (U := up_other o). destruct (goes_up o) as [o1 e]. cbn [snd fold_left] in *. apply other_fold; [exact U|].
    destruct R as [(A & B & C & D) E]. unfold wp, wish_step. cbn [ev_id]. rewrite Nat.eqb_refl. cbn [negb]. split; cbn [fst snd cond]; [repeat split; assumption|].
    split; [exact E|]. split; [exact B|]. rewrite D. destruct (a_cmode (o_adrs o)); [split; [discriminate|exact C]|reflexivity].
Qed.
Lemma RW_step c s o a o' e : ostep c o a = Some (o', e) -> RW s o -> RW (fold_left (wp c (o_id o)) e s) o'.
Proof.
  intros H R. destruct (step_sets _ _ _ _ _ H) as [_ SA].
  destruct a as [q|ok|d| | |ok| |ok|rr| |xs| |]; try (apply (RW_adrs _ o _ SA)); cbn [ostep] in H.
  - apply other_fold; [|exact R]. destruct (o_in o || o_held o); [|discriminate H]. destruct (_ <? _); [|injection H as <- <-; reflexivity].
    set (o1 := with_out o _ _ _ _) in H. assert (K := kick_other o1). destruct (kick o1) as [o2 e2]. injection H as <- <-. exact K.
  - apply other_fold; [|exact R]. destruct (0 <? length (o_flight o)); [|discriminate H]. destruct ok; [destruct (0 <? length (o_sendb o))|]; injection H as <- <-; reflexivity.
  - apply other_fold; [|exact R]. destruct (o_read o); [|discriminate H]. destruct (cut (o_unp o) d) as [ms r]. injection H as <- <-. reflexivity.
  - apply other_fold; [|exact R]. destruct (o_read o); [|discriminate H]. injection H as <- <-. reflexivity.
  - apply other_fold; [|exact R]. destruct (_ && _); [|discriminate H]. injection H as <- <-. reflexivity.
  - apply other_fold; [|exact R]. destruct (o_posted o); [discriminate H|]. destruct (if o_disp o then _ else _) as [[m r]|]; [destruct ok|]; injection H as <- <-; reflexivity.
  - apply other_fold; [|exact R]. destruct (o_timer o); [|discriminate H]. injection H as <- <-. reflexivity.
  - destruct (o_conn o); [|discriminate H]. destruct (o_started o); [destruct ok|].
    + injection H as H. assert (U := up_other o). rewrite H in U. apply other_fold; assumption.
    + destruct (o_need o); injection H as <- <-; [apply RW_conn|]; exact R.
    + destruct ok; [injection H as H; assert (U := late_other o); rewrite H in U; apply other_fold; assumption|]. injection H as <- <-. exact R.
  - destruct (_ && _); [|discriminate H]. injection H as <- <-. exact R.
  - destruct (o_closing o && _ && _ && _ && _); [|discriminate H].
    set (o1 := with_life o _ _ _ _ _ _ _ _ _ _ _ _) in *. assert (D := other_fold c (o_id o) o [EDown (o_id o)] s eq_refl R). cbn [fold_left] in D.
    destruct (o_need o); [|injection H as <- <-; exact D].
    assert (U := RW_start c _ o1 (RW_adrs _ o o1 eq_refl D)). destruct (start_sets c o1) as [_ SB]. destruct (start c o1) as [o2 e2]. injection H as <- <-.
    cbn [fst snd fold_left] in *. apply (RW_adrs _ o2); [rewrite SB; reflexivity|exact U].
  - destruct (_ || _); [|discriminate H]. injection H as <- <-. cbn [fold_left]. destruct R as [R1 R2]. unfold wp. cbn [ev_id]. rewrite Nat.eqb_refl.
    split; cbn [fst snd cond]; [|auto]. apply set_agrees. exact R1.
  - apply other_fold; [|exact R]. destruct (_ || _); [|discriminate H]. injection H as <- <-. reflexivity.
  - apply other_fold; [|exact R]. destruct (o_held o); [|discriminate H]. injection H as <- <-. reflexivity.
Qed.
(** what the overload in use does not set is as in a new object *)
Definition AC (c : ucfg) (sh : nat) (o : obj) : Prop := forall f, shape (u_kind c) f = sh -> valid_form f = true -> apply_form (u_kind c) f (o_adrs o) = apply_form (u_kind c) f (def_adrs c).
Lemma apply_twice k f f' a : shape k f = shape k f' -> valid_form f' = true -> apply_form k f' (apply_form k f a) = apply_form k f' a.
Proof.
  intros S V. destruct k; [reflexivity| |]; destruct f as [|p ip|p ip p2 ip2], f' as [|q jp|q jp q2 jp2]; try discriminate S; cbn [valid_form] in V; try (apply andb_true_iff in V as [V V2]);
    cbn [apply_form a_server a_local a_peer a_cmode]; repeat match goal with x : ipt |- _ => destruct x end; try discriminate V; try discriminate V2; reflexivity.
Qed.
Definition good131 (c : ucfg) (sh : nat) (a : uact) : bool := valid_add a && (negb (u_reuse c) || steady (u_kind c) sh a).
Definition P131 (c : ucfg) (sh : nat) (o : obj) : Prop := J o /\ (u_reuse c = true -> AC c sh o).
Lemma P131_step c sh i o a o' e : ostep c o a = Some (o', e) -> good131 c sh (UObj i a) = true -> P131 c sh o -> P131 c sh o'.
Proof.
  intros H G [JO A]. split; [exact (J_step _ _ _ _ _ H JO)|]. intros U. specialize (A U). destruct (step_sets _ _ _ _ _ H) as [_ S].
  unfold good131 in G. rewrite U in G. cbn [valid_add negb orb andb steady] in G. unfold AC. intros f F V. rewrite S.
  destruct a; try (apply A; assumption). destruct x; try (apply A; assumption); discriminate G.
Qed.
Lemma born_adrs c sh o i f : born c (P131 c sh) o i -> (u_reuse c = false \/ shape (u_kind c) f = sh) -> valid_form f = true ->
  J o /\ o_id o = i /\ apply_form (u_kind c) f (o_adrs o) = apply_form (u_kind c) f (def_adrs c).
Proof.
  intros [->|(U & o0 & [JO A] & RU & ->)] S V; [split; [apply J_fresh|split; reflexivity]|].
  rewrite reset_fresh by assumption. split; [destruct (J_fresh c i); constructor; assumption|]. split; [reflexivity|]. cbn [o_adrs with_sets]. apply A; [exact U| |exact V]. destruct S as [S|S]; [congruence|exact S].
Qed.
Lemma good_shape c sh k f : good131 c sh (UAdd k f) = true -> valid_form f = true /\ (u_reuse c = false \/ shape (u_kind c) f = sh).
Proof.
  unfold good131. cbn [valid_add steady]. intros G. apply andb_true_iff in G as [G1 G2]. split; [exact G1|]. destruct (u_reuse c); [|left; reflexivity].
  right. apply Nat.eqb_eq. exact G2.
Qed.
Lemma P131_add c sh o i f k : born c (P131 c sh) o i -> good131 c sh (UAdd k f) = true -> P131 c sh (fst (start c (made c f o))).
Proof.
  intros B G. apply good_shape in G as [V S]. destruct (born_adrs _ _ _ _ f B S V) as (JO & _ & AE). split; [apply J_start, made_J; exact JO|].
  intros U. destruct S as [S|S]; [congruence|]. intros f' F' V'. destruct (start_sets c (made c f o)) as [_ SA]. rewrite SA. cbn [made o_adrs with_sets].
  rewrite AE, apply_twice by congruence. reflexivity.
Qed.
Lemma asked131 c sh l s t : urun c u0 l = Some (s, t) -> forallb (good131 c sh) l = true -> as_asked c t.
Proof.
  intros H G.
  assert (I : Inv (P131 c sh) (wish * Prop) (wp c) (wish0, True) RW (fun p => snd p) s t).
  { refine (Inv_all c (good131 c sh) (P131 c sh) (wish * Prop) (wp c) (wish0, True) RW (fun p => snd p) _ _ _ _ _ _ _ l s t H G).
    - exact (wp_frame c).
    - intros o i f k B GG. exact (P131_add _ _ _ _ _ _ B GG).
    - intros i o a o' e OS GG PO. exact (P131_step _ _ _ _ _ _ _ OS GG PO).
    - intros o i f k B GG. apply good_shape in GG as [V S]. destruct (born_adrs _ _ _ _ f B S V) as (JO & ID & AE). cbn [fold_left].
      replace i with (o_id (made c f o)) by exact ID. apply RW_start. unfold wp. cbn [ev_id]. rewrite Nat.eqb_refl. split; cbn [fst snd cond]; [|auto].
      change (o_id (made c f o)) with (o_id o). cbn [made o_adrs with_sets]. rewrite AE. apply fits_add. exact V.
    - intros i q o a o' e OS _ _ R. exact (RW_step _ _ _ _ _ _ OS R).
    - intros q o [_ R]. exact R.
    - exact Logic.I. }
  intros a e b E. assert (OK := v_ok _ _ _ _ _ _ _ _ I (ev_id e)). cbn beta in OK. unfold mn in OK. apply wp_snd in OK as [_ OK]. specialize (OK a e b E eq_refl).
  destruct e; try exact Logic.I; exact OK.
Qed.
(** C131_statement where the addresses given to add_socket are valid and either objects are not used again or always the same overload of
    add_socket is used and the setters are not; missing: the other cases, where it is false *)
Theorem C131_partial c l s t : urun c u0 l = Some (s, t) -> forallb valid_add l = true ->
  (u_reuse c = false \/ exists sh, forallb (steady (u_kind c) sh) l = true) -> as_asked c t.
Proof.
  intros H V [U|(sh & S)].
  - apply (asked131 c 0 l s t H). rewrite forallb_forall in *. intros a IN. unfold good131. rewrite (V a IN), U. reflexivity.
  - apply (asked131 c sh l s t H). rewrite forallb_forall in *. intros a IN. unfold good131. rewrite (V a IN), (S a IN). apply orb_true_r.
Qed.
Print Assumptions C131_partial.
(** a client that always names both addresses, with objects used again *)
Definition ex_cl : ucfg := mk_u KClient true (mk_ep 1 80) false false 100 100 5.
Definition ex_two : list uact := [UAdd 0 (FTwo 81 (IGood 2) 7 INone); UObj 1 (OConn false); UObj 1 OClosed; UObj 1 ORelease; UAdd 0 (FTwo 82 (IGood 3) 8 (IGood 9)); UObj 2 (OConn true)].
Example C131_example : forallb valid_add ex_two = true /\ forallb (steady KClient 2) ex_two = true /\ exists s t, urun ex_cl u0 ex_two = Some (s, t) /\ us_idle s = [] /\
  In (EConnect 1 (mk_ep 0 7) (mk_ep 2 81)) t /\ In (EConnect 2 (mk_ep 9 8) (mk_ep 3 82)) t.
Proof. split; [reflexivity|]. split; [reflexivity|]. do 2 eexists. split; [vm_compute; reflexivity|]. vm_compute. tauto. Qed.
(** the local address of a former socket is used although none was asked for *)
Definition ex_local : list uact := [UAdd 0 (FTwo 81 (IGood 2) 7 INone); UObj 1 (OConn false); UObj 1 OClosed; UObj 1 ORelease; UAdd 0 (FOne 82 (IGood 3))].
Theorem C131_reuse_refuted : exists c l s t, forallb valid_add l = true /\ urun c u0 l = Some (s, t) /\ In (EConnect 2 (mk_ep 0 7) (mk_ep 3 82)) t /\ ~ as_asked c t.
Proof.
  exists ex_cl, ex_local. do 2 eexists. split; [reflexivity|]. split; [vm_compute; reflexivity|]. split; [vm_compute; tauto|].
  intros A. specialize (A [EAdd 1 (FTwo 81 (IGood 2) 7 INone); EConnect 1 (mk_ep 0 7) (mk_ep 2 81); EDown 1; EAdd 2 (FOne 82 (IGood 3))] (EConnect 2 (mk_ep 0 7) (mk_ep 3 82)) [] eq_refl).
  cbn beta iota in A. destruct A as [A _]. vm_compute in A. discriminate A.
Qed.
Print Assumptions C131_reuse_refuted.
(** the local address and connect mode of a former UDP socket are used *)
Definition ex_udp : ucfg := mk_u KUdp true (mk_ep 1 80) false false 100 100 5.
Definition ex_udp_l : list uact := [UAdd 0 (FTwo 5 INone 6 (IGood 4)); UObj 1 (OSet SConnect); UObj 1 (OClose false); UObj 1 OReadErr; UObj 1 OClosed; UObj 1 ORelease; UAdd 0 (FOne 9 INone)].
Theorem C131_udp_refuted : exists c l s t, u_kind c = KUdp /\ forallb valid_add l = true /\ urun c u0 l = Some (s, t) /\
  In (EBind 2 (mk_ep 0 9) (Some (mk_ep 4 6))) t /\ u_cmode c = false /\ ~ as_asked c t.
Proof.
  exists ex_udp, ex_udp_l. do 2 eexists. split; [reflexivity|]. split; [reflexivity|]. split; [vm_compute; reflexivity|]. split; [vm_compute; tauto|]. split; [reflexivity|].
  intros A. match type of A with as_asked _ ?t => specialize (A (firstn 6 t) (EBind 2 (mk_ep 0 9) (Some (mk_ep 4 6))) (skipn 7 t) eq_refl) end.
  cbn beta iota in A. destruct A as [_ A]. vm_compute in A. discriminate A.
Qed.
Print Assumptions C131_udp_refuted.
(** an address that cannot be parsed: add_socket connects to the server set as default *)
Theorem C131_invalid_refuted : exists c l s t, u_reuse c = false /\ urun c u0 l = Some (s, t) /\ In (EConnect 1 (mk_ep 0 0) (u_server c)) t /\ ~ as_asked c t.
Proof.
  exists (no_reuse ex_cl), [UAdd 0 (FOne 82 IBad)]. do 2 eexists. split; [reflexivity|]. split; [vm_compute; reflexivity|]. split; [vm_compute; tauto|].
  intros A. specialize (A [EAdd 1 (FOne 82 IBad)] (EConnect 1 (mk_ep 0 0) (mk_ep 1 80)) [] eq_refl). cbn beta iota in A. destruct A as [_ A]. vm_compute in A. discriminate A.
Qed.
Print Assumptions C131_invalid_refuted.
Theorem C131_statement_refuted : ~ C131_statement.
Proof. intros H. destruct C131_invalid_refuted as (c & l & s & t & _ & R & _ & N). exact (N (H c l s t R)). Qed.
Print Assumptions C131_statement_refuted.

(** ** C130: whether objects are used again cannot be seen *)
Definition C130_statement : Prop := forall c l s t, u_reuse c = true -> urun c u0 l = Some (s, t) -> exists s', urun (no_reuse c) u0 l = Some (s', t).
(** no setters are called *)
Definition unset (a : uact) : bool := match a with UObj _ (OSet _) => false | _ => true end.
Definition clean (c : ucfg) (sh : nat) (o : obj) : Prop := J o /\ o_sets o = def_sets c /\ AC c sh o.
Definition Sim (c : ucfg) (sh : nat) (s s' : ust) : Prop :=
  us_act s = us_act s' /\ us_cur s = us_cur s' /\ (forall o, In o (us_act s) -> clean c sh o) /\ (forall o, In o (us_idle s) -> clean c sh o /\ reusable o = true).
Definition good130 (c : ucfg) (sh : nat) (a : uact) : bool := valid_add a && steady (u_kind c) sh a && unset a.
Lemma clean_fresh c sh i : clean c sh (fresh c i).
Proof. split; [apply J_fresh|]. split; [reflexivity|]. intros f _ _. reflexivity. Qed.
Lemma sim_step c sh s s1 a s2 e : u_reuse c = true -> ustep c s a = Some (s2, e) -> good130 c sh a = true -> Sim c sh s s1 -> exists s3, ustep (no_reuse c) s1 a = Some (s3, e) /\ Sim c sh s2 s3.
Proof.
  intros U H G (E1 & E2 & C & I). unfold good130 in G. apply andb_true_iff in G as [G G3]. apply andb_true_iff in G as [G1 G2]. destruct a as [k f|i x]; cbn [ustep] in H.
  - cbn [valid_add steady] in G1, G2. apply Nat.eqb_eq in G2. destruct (create c k s) as [[o r]|] eqn:CR; [|discriminate H].
    assert (K : clean c sh o /\ with_sets o (o_sets o) (apply_form (u_kind c) f (o_adrs o)) = made c f (fresh c (S (us_cur s))) /\ o_id o = S (us_cur s) /\ forall x, In x r -> In x (us_idle s)).
    { unfold create in CR. rewrite U in CR. destruct (us_idle s) as [|y l] eqn:E; [injection CR as <- <-; split; [apply clean_fresh|]; split; [reflexivity|]; split; [reflexivity|]; intros ? []|].
      rewrite <- E in *. clear E. destruct (take_nth k (us_idle s)) as [[o1 r1]|] eqn:T; [|discriminate CR]. injection CR as <- <-. apply take_in in T as [T1 T2].
      destruct (I _ T1) as [(JO & SO & AO) RU]. rewrite (reset_fresh c o1 _ JO RU). split; [|split; [|split; [reflexivity|exact T2]]].
      - split; [destruct (J_fresh c (S (us_cur s))); constructor; assumption|]. split; [exact SO|exact AO].
      - unfold made. cbn [o_sets o_adrs with_sets]. rewrite (AO f G2 G1), SO. reflexivity. }
    destruct K as (K1 & K2 & K3 & K4). rewrite K2 in H. set (n := made c f (fresh c (S (us_cur s)))) in *.
    assert (CN : clean c sh (fst (start c n))).
    { destruct (start_sets c n) as [B1 B2]. split; [apply J_start, made_J, J_fresh|]. split; [rewrite B1; reflexivity|]. intros f' F' V'. rewrite B2. unfold n. cbn [made o_adrs with_sets].
      change (o_adrs (fresh c (S (us_cur s)))) with (def_adrs c). apply apply_twice; [congruence|exact V']. }
    destruct (start c n) as [o2 e2] eqn:ST. injection H as <- <-. cbn [fst] in CN.
    exists (mk_us (us_act s1 ++ [o2]) (us_idle s1) (S (us_cur s1))). split.
    + cbn [ustep]. change (create (no_reuse c) k s1) with (Some (fresh c (S (us_cur s1)), us_idle s1)). cbn beta iota zeta. rewrite <- E2.
      change (with_sets (fresh c (S (us_cur s))) (o_sets (fresh c (S (us_cur s)))) (apply_form (u_kind (no_reuse c)) f (o_adrs (fresh c (S (us_cur s)))))) with n.
      change (start (no_reuse c) n) with (start c n). rewrite ST, K3. reflexivity.
    + split; [cbn [us_act]; rewrite E1; reflexivity|]. split; [cbn [us_cur]; rewrite E2; reflexivity|]. split; cbn [us_act us_idle].
      * intros y IN. apply in_app_or in IN as [IN|[<-|[]]]; [apply C; exact IN|exact CN].
      * intros y IN. apply I, K4. exact IN.
  - destruct (look i (us_act s)) as [[[l o] r]|] eqn:L; [|discriminate H]. destruct (ostep c o x) as [[o1 e1]|] eqn:OS; [|discriminate H]. injection H as <- <-.
    exists (if reusable o1 then mk_us (l ++ r) (us_idle s1 ++ [o1]) (us_cur s1) else mk_us (l ++ o1 :: r) (us_idle s1) (us_cur s1)). split.
    + cbn [ustep]. rewrite <- E1, L. change (ostep (no_reuse c) o x) with (ostep c o x). rewrite OS. reflexivity.
    + apply look_split in L as [L ID]. assert (INo : In o (us_act s)) by (rewrite L; apply in_or_app; right; left; reflexivity). destruct (C _ INo) as (JO & SO & AO).
      destruct (step_sets _ _ _ _ _ OS) as [B1 B2].
      assert (C1 : clean c sh o1). { split; [exact (J_step _ _ _ _ _ OS JO)|]. unfold AC. rewrite B1, B2. destruct x; try (split; assumption). discriminate G3. }
      assert (OTH : forall y, In y (l ++ r) -> clean c sh y). { intros y IN. apply C. rewrite L. apply in_app_or in IN as [IN|IN]; apply in_or_app; [left|right; right]; exact IN. }
      destruct (reusable o1) eqn:RU; (split; [reflexivity|]; split; [exact E2|]; split; cbn [us_act us_idle]).
      * exact OTH.
      * intros y IN. apply in_app_or in IN as [IN|[<-|[]]]; [apply I; exact IN|auto].
      * intros y IN. apply in_app_or in IN as [IN|[<-|IN]]; [apply OTH, in_or_app; left; exact IN|exact C1|apply OTH, in_or_app; right; exact IN].
      * exact I.
Qed.
Lemma sim_run c sh l : u_reuse c = true -> forall s s1 s2 t, urun c s l = Some (s2, t) -> forallb (good130 c sh) l = true -> Sim c sh s s1 -> exists s3, urun (no_reuse c) s1 l = Some (s3, t).
Proof.
  intros U. induction l as [|a l IH]; intros s s1 s2 t H G R; cbn [urun] in *; [injection H as <- <-; exists s1; reflexivity|].
  cbn [forallb] in G. apply andb_true_iff in G as [G1 G2]. destruct (ustep c s a) as [[sa ea]|] eqn:E; [|discriminate H].
  destruct (urun c sa l) as [[sb eb]|] eqn:E2; [|discriminate H]. injection H as <- <-. destruct (sim_step _ _ _ _ _ _ _ U E G1 R) as (s3 & F & R3).
  destruct (IH _ _ _ _ E2 G2 R3) as (s4 & F4). rewrite F, F4. exists s4. reflexivity.
Qed.
(** C130_statement where no setters are called, the addresses given to add_socket are valid and always the same overload of it is used;
    missing: the other cases, where it is false *)
Theorem C130_partial c sh l s t : u_reuse c = true -> urun c u0 l = Some (s, t) -> forallb unset l = true -> forallb valid_add l = true -> forallb (steady (u_kind c) sh) l = true ->
  exists s', urun (no_reuse c) u0 l = Some (s', t).
Proof.
  intros U H G1 G2 G3. refine (sim_run c sh l U u0 u0 s t H _ _).
  - rewrite forallb_forall in *. intros a IN. unfold good130. rewrite (G1 a IN), (G2 a IN), (G3 a IN). reflexivity.
  - split; [reflexivity|]. split; [reflexivity|]. split; intros o [].
Qed.
Print Assumptions C130_partial.
Example C130_example : let l := life1 ++ UObj 1 ORelease :: life2 in forallb unset l = true /\ forallb valid_add l = true /\ forallb (steady KServer 0) l = true /\
  exists s t s', urun ex_cfg u0 l = Some (s, t) /\ us_idle s = [] /\ urun (no_reuse ex_cfg) u0 l = Some (s', t) /\ length (us_idle s') = 1.
Proof. split; [reflexivity|]. split; [reflexivity|]. split; [reflexivity|]. do 3 eexists. split; [vm_compute; reflexivity|]. split; [reflexivity|]. split; [vm_compute; reflexivity|reflexivity]. Qed.
(** a size of the send buffer that was set for a former peer holds for the next one *)
Definition ex_set : list uact := [UAdd 0 FNone; UObj 1 (OSet (SSend 1)); UObj 1 (OClose false); UObj 1 OReadErr; UObj 1 OClosed; UObj 1 ORelease;
  UAdd 0 FNone; UObj 2 (OSend [b1]); UObj 2 (OSend [b1]); UObj 2 (OSend [b2])].
Theorem C130_refuted : exists c l s t s' t', u_reuse c = true /\ urun c u0 l = Some (s, t) /\ urun (no_reuse c) u0 l = Some (s', t') /\
  In (ERefused 2 [b2]) t /\ In (EQueued 2 [b2]) t' /\ (forall n, ~ In (UObj 2 (OSet n)) l).
Proof.
  exists ex_cfg, ex_set. do 4 eexists. split; [reflexivity|]. split; [vm_compute; reflexivity|]. split; [vm_compute; reflexivity|]. split; [vm_compute; tauto|]. split; [vm_compute; tauto|].
  intros n H. unfold ex_set in H. cbn [In] in H. repeat (destruct H as [H|H]; [discriminate H|]). exact H.
Qed.
Print Assumptions C130_refuted.
Theorem C130_statement_refuted : ~ C130_statement.
Proof.
  intros H. destruct (urun ex_cfg u0 ex_set) as [[s t]|] eqn:E; [|vm_compute in E; discriminate E]. destruct (H ex_cfg ex_set s t eq_refl E) as (s' & E').
  vm_compute in E, E'. injection E as _ E. injection E' as _ E'. rewrite <- E in E'. discriminate E'.
Qed.
Print Assumptions C130_statement_refuted.
Print Assumptions C132.
