(** Lemmas about timers. *)
From Coq Require Import List Permutation NArith Bool Arith Lia ZifyBool ZifyNat ZifyN.
From Verif Require Import M_Timer S_Timer.
Import ListNotations.
Open Scope N_scope.

Lemma find_upd id id' f l : (forall t, t_id (f t) = t_id t) ->
  find_timer id (upd id' f l) = if id' =? id then option_map f (find_timer id l) else find_timer id l.
Proof.
  intros F. unfold find_timer, upd. induction l as [|t l IH]; cbn [map find]; [destruct (_ =? _); reflexivity|].
  destruct (N.eqb_spec (t_id t) id') as [E|E].
  - rewrite F. destruct (N.eqb_spec (t_id t) id) as [E1|E1].
    + assert (id' = id) by congruence. subst. rewrite N.eqb_refl. reflexivity.
    + rewrite IH. reflexivity.
  - destruct (N.eqb_spec (t_id t) id) as [E1|E1]; [|exact IH].
    destruct (N.eqb_spec id' id); [congruence|reflexivity].
Qed.
Lemma find_id id l t : find_timer id l = Some t -> t_id t = id.
Proof. unfold find_timer. intros H. apply find_some in H. lia. Qed.
Lemma find_app id l x : find_timer id (l ++ [x]) = match find_timer id l with Some t => Some t | None => if t_id x =? id then Some x else None end.
Proof. unfold find_timer. induction l as [|t l IH]; cbn [app find]; [reflexivity|]. destruct (t_id t =? id); [reflexivity|exact IH]. Qed.

Lemma of_app id a b : of_timer id (a ++ b) = of_timer id a ++ of_timer id b.
Proof. unfold of_timer. rewrite filter_app, map_app. reflexivity. Qed.
Lemma of_one id i e : of_timer id [(i, e)] = if i =? id then [e] else [].
Proof. unfold of_timer. cbn [filter fst]. destruct (_ =? _); reflexivity. Qed.
Lemma of_cons id x l : of_timer id (x :: l) = of_timer id [x] ++ of_timer id l.
Proof. apply (of_app id [x] l). Qed.

Lemma starts_app a b : starts (a ++ b) = starts a + starts b.
Proof. induction a as [|e a IH]; [reflexivity|]. destruct e; cbn [app starts]; rewrite IH; lia. Qed.
Lemma active_fst l x : fst (fold_left active_step l x) = fst x + starts l.
Proof.
  revert x. induction l as [|e l IH]; intros x; cbn [fold_left starts]; [lia|]. rewrite IH.
  destruct e as [| | | | |n [|]|]; cbn [active_step fst]; try lia. destruct (_ =? _); cbn [fst]; lia.
Qed.
Lemma active_snoc l e : active (l ++ [e]) =
  match e with EStart _ _ _ => true | EStop => false | ERet no false => if no =? starts l then false else active l | _ => active l end.
Proof.
  unfold active. rewrite fold_left_app. cbn [fold_left]. destruct e as [| | | | |n [|]|]; cbn [active_step snd]; try reflexivity.
  rewrite active_fst. cbn [fst]. destruct (_ =? _) eqn:E1, (n =? starts l) eqn:E2; try lia; reflexivity.
Qed.
Lemma last_start_snoc l e : last_start (l ++ [e]) = match e with EStart _ t i => Some (t, i) | _ => last_start l end.
Proof. unfold last_start. rewrite fold_left_app. reflexivity. Qed.

Lemma snoc_split {A} (l : list A) e a x b : l ++ [e] = a ++ x :: b -> (b = [] /\ a = l /\ x = e) \/ exists b', b = b' ++ [e] /\ l = a ++ x :: b'.
Proof.
  intros H. destruct (exists_last (l := x :: b)) as (b' & y & E); [discriminate|].
  rewrite E in H. rewrite app_assoc in H. apply app_inj_tail in H. destruct H as (H1 & H2). subst y.
  destruct b' as [|z b']; cbn [app] in E; inversion E; subst.
  - left. rewrite app_nil_r. auto.
  - right. exists b'. auto.
Qed.
Lemma fresh_snoc l e : fresh (l ++ [e]) -> fresh l /\ (forall no, e = EDone no -> starts l < no + 256).
Proof.
  intros H. split.
  - intros a no b ->. apply (H a no (b ++ [e])). rewrite <- app_assoc. reflexivity.
  - intros no ->. apply (H l no []). reflexivity.
Qed.
Lemma clean_snoc l e : clean (l ++ [e]) -> clean l /\ (forall no t i, e = EStart no t i -> forall n, In (EExpire n) l -> In (ERun n) l).
Proof.
  intros H. split.
  - intros a no t i b ->. apply (H a no t i (b ++ [e])). rewrite <- app_assoc. reflexivity.
  - intros no t i ->. apply (H l no t i []). reflexivity.
Qed.

Definition waits (t : tinfo) : list wait := match t_armed t with Some w => [w] | None => [] end ++ map fst (t_queue t).

Record tinv (hole : option N) (tm : N) (l : list tev) (t : tinfo) : Prop := {
  v_no : t_no t = starts l;
  v_seq : t_seq t = (255 + t_no t) mod 256;
  v_w : forall w, In w (waits t) -> w_no w <= t_no t /\ w_seq w = (255 + w_no w) mod 256;
  v_nd : NoDup (map w_no (waits t));
  v_hole : forall n, hole = Some n -> In (ERun n) l;
  v_armed : forall w, t_armed t = Some w -> w_no w = t_no t /\ exists t0 iv, last_start l = Some (t0, iv) /\ w_at w = t0 + iv;
  v_abort : forall w, In (w, false) (t_queue t) -> w_no w = t_no t -> t_status t <> Started;
  v_on : t_status t = Started -> active l = true;
  v_off : fresh l -> active l = true -> t_status t = Started;
  v_pend : t_status t = Started -> t_armed t <> None \/ (exists w, In (w, true) (t_queue t) /\ w_no w = t_no t) \/ hole = Some (t_no t);
  v_lab : forall w, In (w, true) (t_queue t) -> In (EExpire (w_no w)) l;
  v_run : forall n, In (ERun n) l -> n <= t_no t /\ ~ In n (map w_no (waits t));
  v_time : clean l -> forall w, In (w, true) (t_queue t) -> exists t0 iv, last_start l = Some (t0, iv) /\ t0 + iv <= tm;
  v_fire : forall a no t0 b, l = a ++ EFire no t0 :: b -> active a = true;
  v_early : clean l -> forall a no t0 b, l = a ++ EFire no t0 :: b -> exists t1 iv, last_start a = Some (t1, iv) /\ t1 + iv <= t0
}.

(** nothing about firing changes unless a callback is invoked *)
Lemma hist_snoc l e : (forall no t, e <> EFire no t) ->
  (forall a no t0 b, l = a ++ EFire no t0 :: b -> active a = true) ->
  forall a no t0 b, l ++ [e] = a ++ EFire no t0 :: b -> active a = true.
Proof. intros NE H a no t0 b E. apply snoc_split in E. destruct E as [(_ & _ & E)|(b' & _ & E)]; [exfalso; exact (NE _ _ (eq_sym E))|eapply H; exact E]. Qed.
Lemma early_snoc l e : (forall no t, e <> EFire no t) ->
  (clean l -> forall a no t0 b, l = a ++ EFire no t0 :: b -> exists t1 iv, last_start a = Some (t1, iv) /\ t1 + iv <= t0) ->
  clean (l ++ [e]) -> forall a no t0 b, l ++ [e] = a ++ EFire no t0 :: b -> exists t1 iv, last_start a = Some (t1, iv) /\ t1 + iv <= t0.
Proof.
  intros NE H C a no t0 b E. apply clean_snoc in C. destruct C as (C & _).
  apply snoc_split in E. destruct E as [(_ & _ & E)|(b' & _ & E)]; [exfalso; exact (NE _ _ (eq_sym E))|eapply H; eauto].
Qed.
Lemma In_snoc {A} (x e : A) l : In x (l ++ [e]) <-> In x l \/ x = e.
Proof. rewrite in_app_iff. cbn [In]. intuition. Qed.

Lemma waits_aborted t : map fst (aborted t) = map fst (t_queue t) ++ match t_armed t with Some w => [w] | None => [] end.
Proof. unfold aborted. destruct (t_armed t); [rewrite map_app; reflexivity|rewrite app_nil_r; reflexivity]. Qed.
Lemma waits_In t w : In w (waits t) <-> t_armed t = Some w \/ In w (map fst (t_queue t)).
Proof. unfold waits. rewrite in_app_iff. destruct (t_armed t) as [x|]; cbn [In]; intuition congruence. Qed.
Lemma aborted_In t w : In w (map fst (aborted t)) <-> In w (waits t).
Proof. rewrite waits_aborted, waits_In, in_app_iff. destruct (t_armed t) as [x|]; cbn [In]; intuition congruence. Qed.
Lemma aborted_nd t : NoDup (map w_no (waits t)) -> NoDup (map w_no (map fst (aborted t))).
Proof.
  rewrite waits_aborted. unfold waits. destruct (t_armed t) as [w|]; cbn [app]; [|rewrite app_nil_r; auto].
  cbn [map]. intros H. rewrite map_app. cbn [map]. eapply Permutation_NoDup; [apply Permutation_cons_append|exact H].
Qed.
Lemma aborted_true t w : In (w, true) (aborted t) <-> In (w, true) (t_queue t).
Proof. unfold aborted. destruct (t_armed t) as [x|]; [|tauto]. rewrite In_snoc. split; [intros [H|H]; [exact H|discriminate]|auto]. Qed.
Lemma aborted_false t w : In (w, false) (aborted t) -> In (w, false) (t_queue t) \/ t_armed t = Some w.
Proof. unfold aborted. destruct (t_armed t) as [x|]; [|auto]. rewrite In_snoc. intros [H|H]; [auto|]. inversion H; auto. Qed.
Lemma wait_q t w b : In (w, b) (t_queue t) -> In w (waits t).
Proof. intros H. apply waits_In. right. apply in_map_iff. exists (w, b). auto. Qed.

Lemma tinv_time hole tm l t tm' : tm <= tm' -> tinv hole tm l t -> tinv hole tm' l t.
Proof. intros L V. destruct V. constructor; auto. intros C w I. destruct (v_time0 C w I) as (t0 & iv & E1 & E2). exists t0, iv. split; [exact E1|lia]. Qed.
Lemma tinv_interval hole tm l t x : tinv hole tm l t -> tinv hole tm l (set_interval x t).
Proof. intros V. destruct V. constructor; cbn [set_interval t_no t_seq t_status t_armed t_queue]; auto. Qed.

Lemma tinv_start hole tm l t : tinv hole tm l t -> tinv hole tm (l ++ [EStart (t_no t + 1) tm (t_interval t)]) (start_ti tm t).
Proof.
  intros V.
  assert (SEQ : (t_seq t + 1) mod 256 = (255 + (t_no t + 1)) mod 256).
  { rewrite (v_seq _ _ _ _ V). rewrite N.add_mod_idemp_l by lia. f_equal. lia. }
  assert (WI : forall w, In w (waits (start_ti tm t)) -> w = mk_w ((t_seq t + 1) mod 256) (t_no t + 1) (tm + t_interval t) \/ In w (waits t)).
  { intros w H. apply waits_In in H. cbn [start_ti t_armed t_queue] in H. destruct H as [H|H]; [left; congruence|]. rewrite aborted_In in H. auto. }
  constructor; cbn [start_ti t_no t_seq t_status t_armed t_queue].
  - rewrite starts_app. cbn [starts]. rewrite (v_no _ _ _ _ V). lia.
  - exact SEQ.
  - intros w H. apply WI in H. destruct H as [->|H]; cbn [w_no w_seq]; [split; [lia|exact SEQ]|].
    apply (v_w _ _ _ _ V) in H. intuition lia.
  - unfold waits. cbn [start_ti t_armed t_queue app map w_no]. constructor; [|apply aborted_nd; apply V].
    rewrite in_map_iff. intros (w & E & I). rewrite aborted_In in I. apply (v_w _ _ _ _ V) in I. lia.
  - intros n H. apply In_snoc. left. apply (v_hole _ _ _ _ V). exact H.
  - intros w H. inversion H; subst. cbn [w_no w_at]. split; [reflexivity|]. exists tm, (t_interval t). rewrite last_start_snoc. auto.
  - intros w H E. exfalso. assert (I : In w (waits t)).
    { apply aborted_In. apply in_map_iff. exists (w, false). auto. }
    apply (v_w _ _ _ _ V) in I. lia.
  - intros _. rewrite active_snoc. reflexivity.
  - auto.
  - intros _. left. discriminate.
  - intros w H. rewrite aborted_true in H. apply In_snoc. left. apply (v_lab _ _ _ _ V). exact H.
  - intros n H. apply In_snoc in H. destruct H as [H|H]; [|discriminate].
    destruct (v_run _ _ _ _ V n H) as (L & NI). split; [lia|]. intros I. apply in_map_iff in I. destruct I as (w & E & I).
    apply WI in I. destruct I as [->|I]; [cbn [w_no] in E; lia|]. apply NI. apply in_map_iff. exists w. auto.
  - intros C w H. exfalso. rewrite aborted_true in H. apply clean_snoc in C. destruct C as (C & C1).
    specialize (C1 _ _ _ eq_refl (w_no w) (v_lab _ _ _ _ V _ H)). apply (v_run _ _ _ _ V) in C1. apply (proj2 C1).
    apply in_map_iff. exists w. split; [reflexivity|]. eapply wait_q. exact H.
  - apply hist_snoc; [discriminate|apply V].
  - apply early_snoc; [discriminate|apply V].
Qed.

Lemma stop_common hole tm l t t' : tinv hole tm l t -> t_no t' = t_no t -> t_seq t' = t_seq t -> t_status t' <> Started ->
  (forall w, t_armed t' = Some w -> t_armed t = Some w) ->
  (forall w, In w (waits t') <-> In w (waits t)) -> NoDup (map w_no (waits t')) -> (forall w, In (w, true) (t_queue t') -> In (w, true) (t_queue t)) ->
  tinv hole tm (l ++ [EStop]) t'.
Proof.
  intros V E1 E2 E3 E4 E5 E6 E7. constructor.
  - rewrite starts_app. cbn [starts]. rewrite E1, (v_no _ _ _ _ V). lia.
  - rewrite E1, E2. apply V.
  - intros w H. apply E5 in H. rewrite E1. apply (v_w _ _ _ _ V). exact H.
  - exact E6.
  - intros n H. apply In_snoc. left. apply (v_hole _ _ _ _ V). exact H.
  - intros w H. apply E4 in H. rewrite E1, last_start_snoc. apply (v_armed _ _ _ _ V). exact H.
  - auto.
  - intros H. contradiction.
  - intros _. rewrite active_snoc. discriminate.
  - intros H. contradiction.
  - intros w H. apply In_snoc. left. apply (v_lab _ _ _ _ V). auto.
  - intros n H. apply In_snoc in H. destruct H as [H|H]; [|discriminate]. destruct (v_run _ _ _ _ V n H) as (L & NI).
    split; [lia|]. intros I. apply NI. apply in_map_iff in I. destruct I as (w & E & I). apply in_map_iff. exists w. split; [exact E|apply E5; exact I].
  - intros C w H. rewrite last_start_snoc. apply clean_snoc in C. apply (v_time _ _ _ _ V (proj1 C) w). auto.
  - apply hist_snoc; [discriminate|apply V].
  - apply early_snoc; [discriminate|apply V].
Qed.
Lemma tinv_mark hole tm l t : tinv hole tm l t -> tinv hole tm (l ++ [EStop]) (set_status Canceled t).
Proof. intros V. apply (stop_common _ _ _ t); auto; try reflexivity; cbn [set_status t_status]; try discriminate. apply V. Qed.
Lemma tinv_stop hole tm l t : tinv hole tm l t -> tinv hole tm (l ++ [EStop]) (stop_ti t).
Proof.
  intros V. unfold stop_ti. destruct (is_started (t_status t)) eqn:ST.
  - apply (stop_common _ _ _ t); auto; try reflexivity; cbn [t_status]; try discriminate.
    + intros w. rewrite waits_In. cbn [t_armed t_queue]. rewrite aborted_In. split; [intros [H|H]; [discriminate|exact H]|auto].
    + unfold waits. cbn [t_armed t_queue app]. apply aborted_nd. apply V.
    + intros w H. cbn [t_queue] in H. apply aborted_true. exact H.
  - apply (stop_common _ _ _ t); auto; try tauto; try apply V. intros E. rewrite E in ST. discriminate.
Qed.

Lemma remove_nth_In {A} k (l : list A) x y : nth_error l k = Some x -> In y l -> y = x \/ In y (remove_nth k l).
Proof.
  revert l. induction k as [|k IH]; intros [|z l] E H; cbn [nth_error] in E; try discriminate.
  - assert (z = x) by congruence. subst. unfold remove_nth. cbn [firstn skipn app]. destruct H; auto.
  - unfold remove_nth. cbn [firstn skipn app]. destruct H as [H|H]; [right; left; exact H|]. destruct (IH l E H); [auto|right; right; assumption].
Qed.
Lemma remove_nth_sub {A} k (l : list A) y : In y (remove_nth k l) -> In y l.
Proof.
  unfold remove_nth. rewrite in_app_iff. intros [H|H].
  - rewrite <- (firstn_skipn k l). apply in_or_app. auto.
  - rewrite <- (firstn_skipn (S k) l). apply in_or_app. auto.
Qed.
Lemma nth_split3 {A} k (l : list A) x : nth_error l k = Some x -> l = firstn k l ++ x :: skipn (S k) l.
Proof.
  revert l. induction k as [|k IH]; intros [|z l] E; cbn [nth_error] in E; try discriminate.
  - cbn [firstn skipn app]. congruence.
  - cbn [firstn skipn app]. f_equal. apply IH. exact E.
Qed.

(** a handler begins: its wait leaves the queue *)
Lemma tinv_run tm l t k w ok : nth_error (t_queue t) k = Some (w, ok) -> tinv None tm l t ->
  tinv (if ok then Some (w_no w) else None) tm (l ++ [ERun (w_no w)]) (set_queue (remove_nth k (t_queue t)) t).
Proof.
  intros K V. pose proof (nth_error_In _ _ K) as KI.
  assert (SUB : forall w', In w' (waits (set_queue (remove_nth k (t_queue t)) t)) -> In w' (waits t)).
  { intros w' H. apply waits_In in H. apply waits_In. cbn [set_queue t_armed t_queue] in H. destruct H as [H|H]; [auto|]. right.
    apply in_map_iff in H. destruct H as (p & E & I). apply in_map_iff. exists p. split; [exact E|]. eapply remove_nth_sub. exact I. }
  assert (ND : NoDup (map w_no (waits (set_queue (remove_nth k (t_queue t)) t))) /\ ~ In (w_no w) (map w_no (waits (set_queue (remove_nth k (t_queue t)) t)))).
  { pose proof (v_nd _ _ _ _ V) as ND. unfold waits in *. cbn [set_queue t_armed t_queue]. unfold remove_nth.
    rewrite (nth_split3 _ _ _ K) in ND. rewrite !map_app in ND |- *. cbn [map fst] in ND. rewrite app_assoc in ND |- *.
    apply NoDup_remove in ND. exact ND. }
  constructor; cbn [set_queue t_no t_seq t_status t_armed t_queue].
  - rewrite starts_app. cbn [starts]. rewrite (v_no _ _ _ _ V). lia.
  - apply V.
  - intros w' H. apply (v_w _ _ _ _ V). auto.
  - apply ND.
  - intros n H. apply In_snoc. right. destruct ok; congruence.
  - intros w' H. rewrite last_start_snoc. apply (v_armed _ _ _ _ V). exact H.
  - intros w' H. apply (v_abort _ _ _ _ V). eapply remove_nth_sub. exact H.
  - intros H. rewrite active_snoc. apply V. exact H.
  - intros F. rewrite active_snoc. apply fresh_snoc in F. apply V. apply F.
  - intros H. destruct (v_pend _ _ _ _ V H) as [P|[(w' & P1 & P2)|P]]; [auto| |discriminate].
    destruct (remove_nth_In _ _ _ _ K P1) as [E|E].
    + inversion E; subst. right. right. congruence.
    + right. left. exists w'. auto.
  - intros w' H. apply In_snoc. left. apply (v_lab _ _ _ _ V). eapply remove_nth_sub. exact H.
  - intros n H. apply In_snoc in H. destruct H as [H|H].
    + destruct (v_run _ _ _ _ V n H) as (L & NI). split; [exact L|]. intros I. apply NI. apply in_map_iff in I. destruct I as (w' & E & I).
      apply in_map_iff. exists w'. auto.
    + inversion H; subst. split; [|apply ND]. apply (v_w _ _ _ _ V). eapply wait_q. exact KI.
  - intros C w' H. rewrite last_start_snoc. apply clean_snoc in C. apply (v_time _ _ _ _ V (proj1 C) w'). eapply remove_nth_sub. exact H.
  - apply hist_snoc; [discriminate|apply V].
  - apply early_snoc; [discriminate|apply V].
Qed.

(** the callback is invoked *)
Lemma tinv_fire hole tm l t no : t_status t = Started ->
  (clean l -> exists t0 iv, last_start l = Some (t0, iv) /\ t0 + iv <= tm) ->
  tinv hole tm l t -> tinv hole tm (l ++ [EFire no tm]) t.
Proof.
  intros ST TM V. constructor; try apply V.
  - rewrite starts_app. cbn [starts]. rewrite (v_no _ _ _ _ V). lia.
  - intros n H. apply In_snoc. left. apply (v_hole _ _ _ _ V). exact H.
  - intros w' H. rewrite last_start_snoc. apply (v_armed _ _ _ _ V). exact H.
  - intros H. rewrite active_snoc. apply V. exact H.
  - auto.
  - intros w' H. apply In_snoc. left. apply (v_lab _ _ _ _ V). exact H.
  - intros n H. apply In_snoc in H. destruct H as [H|H]; [|discriminate]. apply (v_run _ _ _ _ V). exact H.
  - intros C w' H. rewrite last_start_snoc. apply clean_snoc in C. apply (v_time _ _ _ _ V (proj1 C) w'). exact H.
  - intros a n t0 b E. apply snoc_split in E. destruct E as [(_ & -> & E)|(b' & _ & E)]; [apply V; exact ST|eapply V; exact E].
  - intros C a n t0 b E. apply clean_snoc in C. destruct C as (C & _). apply snoc_split in E. destruct E as [(_ & -> & E)|(b' & _ & E)].
    + inversion E; subst. auto.
    + eapply V; eauto.
Qed.

Lemma tinv_expire tm l t w : t_armed t = Some w -> w_at w <= tm -> tinv None tm l t ->
  tinv None tm (l ++ [EExpire (w_no w)]) (mk_t (t_id t) (t_seq t) (t_status t) (t_interval t) None (t_queue t ++ [(w, true)]) (t_no t)).
Proof.
  intros A L V. set (t' := mk_t _ _ _ _ _ _ _).
  assert (SUB : forall w', In w' (waits t') <-> In w' (waits t)).
  { intros w'. rewrite !waits_In. unfold t'. cbn [t_armed t_queue]. rewrite map_app, in_app_iff, A. cbn [map fst In]. intuition congruence. }
  assert (ND : NoDup (map w_no (waits t'))).
  { pose proof (aborted_nd _ (v_nd _ _ _ _ V)) as H. unfold aborted in H. rewrite A in H. unfold waits, t'. cbn [t_armed t_queue app].
    rewrite map_app in H |- *. exact H. }
  unfold t' in *. constructor; cbn [t_no t_seq t_status t_armed t_queue] in *.
  - rewrite starts_app. cbn [starts]. rewrite (v_no _ _ _ _ V). lia.
  - apply V.
  - intros w' H. apply (v_w _ _ _ _ V). apply SUB. exact H.
  - exact ND.
  - discriminate.
  - discriminate.
  - intros w' H. apply In_snoc in H. destruct H as [H|H]; [|discriminate]. apply (v_abort _ _ _ _ V). exact H.
  - intros H. rewrite active_snoc. apply V. exact H.
  - intros F. rewrite active_snoc. apply fresh_snoc in F. apply V. apply F.
  - intros H. right. left. exists w. split; [apply In_snoc; auto|]. apply (v_armed _ _ _ _ V). exact A.
  - intros w' H. apply In_snoc in H. apply In_snoc. destruct H as [H|H]; [left; apply (v_lab _ _ _ _ V); exact H|right; congruence].
  - intros n H. apply In_snoc in H. destruct H as [H|H]; [|discriminate]. destruct (v_run _ _ _ _ V n H) as (L1 & NI).
    split; [exact L1|]. intros I. apply NI. apply in_map_iff in I. destruct I as (w' & E & I). apply in_map_iff. exists w'. split; [exact E|apply SUB; exact I].
  - intros C w' H. rewrite last_start_snoc. apply clean_snoc in C. apply In_snoc in H. destruct H as [H|H].
    + apply (v_time _ _ _ _ V (proj1 C) w'). exact H.
    + destruct (v_armed _ _ _ _ V w A) as (_ & t0 & iv & E1 & E2). exists t0, iv. split; [exact E1|lia].
  - apply hist_snoc; [discriminate|apply V].
  - apply early_snoc; [discriminate|apply V].
Qed.

(** an event that changes neither the timer nor its specification *)
Lemma tinv_note hole tm l t e :
  match e with ERet _ true => True | _ => False end -> tinv hole tm l t -> tinv hole tm (l ++ [e]) t.
Proof.
  intros K V. destruct e as [| | | | |n [|]|]; try contradiction.
  constructor; try apply V.
  - rewrite starts_app. cbn [starts]. rewrite (v_no _ _ _ _ V). lia.
  - intros m H. apply In_snoc. left. apply (v_hole _ _ _ _ V). exact H.
  - intros w' H. rewrite last_start_snoc. apply (v_armed _ _ _ _ V). exact H.
  - intros H. rewrite active_snoc. apply V. exact H.
  - intros F. rewrite active_snoc. apply fresh_snoc in F. apply V. apply F.
  - intros w' H. apply In_snoc. left. apply (v_lab _ _ _ _ V). exact H.
  - intros m H. apply In_snoc in H. destruct H as [H|H]; [|discriminate]. apply (v_run _ _ _ _ V). exact H.
  - intros C w' H. rewrite last_start_snoc. apply clean_snoc in C. apply (v_time _ _ _ _ V (proj1 C) w'). exact H.
  - apply hist_snoc; [discriminate|apply V].
  - apply early_snoc; [discriminate|apply V].
Qed.

(** events that change nothing but the history *)
Definition plain (e : tev) : Prop := match e with ERet _ _ | EDone _ => True | _ => False end.
Lemma plain_other l e : plain e ->
  starts (l ++ [e]) = starts l /\ last_start (l ++ [e]) = last_start l /\
  (forall n, In (EExpire n) (l ++ [e]) <-> In (EExpire n) l) /\ (forall n, In (ERun n) (l ++ [e]) <-> In (ERun n) l).
Proof.
  intros P. split; [|split; [|split]].
  - rewrite starts_app. destruct e; try contradiction; cbn [starts]; lia.
  - rewrite last_start_snoc. destruct e; try contradiction; reflexivity.
  - intros n. rewrite In_snoc. split; [intros [H|H]; [exact H|subst e; contradiction]|auto].
  - intros n. rewrite In_snoc. split; [intros [H|H]; [exact H|subst e; contradiction]|auto].
Qed.
Lemma tinv_plain hole hole' tm l t t' e : plain e -> tinv hole tm l t ->
  t_no t' = t_no t -> t_seq t' = t_seq t -> t_armed t' = t_armed t -> t_queue t' = t_queue t ->
  (t_status t' = Started -> t_status t = Started) ->
  (forall n, hole' = Some n -> hole = Some n) ->
  (t_status t' = Started -> active (l ++ [e]) = true) -> (fresh (l ++ [e]) -> active (l ++ [e]) = true -> t_status t' = Started) ->
  (t_status t' = Started -> hole = Some (t_no t) -> hole' = Some (t_no t)) ->
  tinv hole' tm (l ++ [e]) t'.
Proof.
  intros P V E1 E2 E3 E4 E5 E6 E7 E8 E9. destruct (plain_other l e P) as (P1 & P2 & P3 & P4).
  assert (WE : waits t' = waits t) by (unfold waits; rewrite E3, E4; reflexivity).
  assert (NF : forall no tm0, e <> EFire no tm0) by (intros ? ? ->; contradiction).
  constructor; rewrite ?P1, ?P2, ?E1, ?E2, ?E3, ?E4, ?WE; try apply V; auto.
  - intros n H. apply P4. apply (v_hole _ _ _ _ V). auto.
  - intros w I1 I2 I3. apply (v_abort _ _ _ _ V w I1 I2). auto.
  - intros H. destruct (v_pend _ _ _ _ V (E5 H)) as [P0|[P0|P0]]; auto.
  - intros w H. apply P3. apply (v_lab _ _ _ _ V). exact H.
  - intros n H. apply P4 in H. apply (v_run _ _ _ _ V). exact H.
  - intros C w H. apply clean_snoc in C. apply (v_time _ _ _ _ V (proj1 C) w). exact H.
  - apply hist_snoc; [exact NF|apply V].
  - apply early_snoc; [exact NF|apply V].
Qed.

Lemma mod_close (a b : N) : a <= b -> b < a + 256 -> (255 + a) mod 256 = (255 + b) mod 256 -> a = b.
Proof.
  intros L1 L2 E. assert (Z : 256 <> 0) by discriminate. pose proof (N.div_mod (255 + a) 256 Z). pose proof (N.div_mod (255 + b) 256 Z).
  pose proof (N.mod_lt (255 + a) 256 Z). lia.
Qed.

(** the handler found the timer not started or the wait cancelled *)
Lemma tinv_ignored hole tm l t w (ok : bool) : tinv hole tm l t -> hole = (if ok then Some (w_no w) else None) ->
  w_no w <= t_no t -> w_seq w = (255 + w_no w) mod 256 ->
  (ok = false -> w_no w = t_no t -> t_status t <> Started) ->
  is_started (t_status t) && ok = false ->
  tinv None tm (l ++ [EDone (w_no w)]) (if w_seq w =? t_seq t then set_status Canceled t else t).
Proof.
  intros V HH L SQ AB NS.
  assert (ST : t_status t = Started -> ok = false) by (intros E; rewrite E in NS; exact NS).
  destruct (N.eqb_spec (w_seq w) (t_seq t)) as [EQ|NE].
  - apply (tinv_plain hole None tm l t); auto; cbn [set_status t_status]; try discriminate; try exact I.
    intros F. rewrite active_snoc. intros A. exfalso. apply fresh_snoc in F. destruct F as (F & F1). specialize (F1 _ eq_refl).
    pose proof (v_off _ _ _ _ V F A) as S. apply (AB (ST S)); [|exact S].
    apply mod_close; [exact L|rewrite (v_no _ _ _ _ V); exact F1|]. rewrite <- SQ, EQ. apply V.
  - apply (tinv_plain hole None tm l t); auto; try discriminate; try exact I.
    + intros S. rewrite active_snoc. apply V. exact S.
    + intros F A. rewrite active_snoc in A. apply fresh_snoc in F. apply V; tauto.
    + intros S H. exfalso. apply ST in S. subst ok. congruence.
Qed.

(** the callback returned and the timer is not continued *)
Lemma tinv_ended tm l t w again : tinv (Some (w_no w)) tm l t ->
  w_seq w = (255 + w_no w) mod 256 -> again && is_started (t_status t) = false ->
  tinv None tm ((l ++ [ERet (w_no w) again]) ++ [EDone (w_no w)]) (if w_seq w =? t_seq t then set_status Canceled t else t).
Proof.
  intros V SQ NA. pose proof (v_run _ _ _ _ V _ (v_hole _ _ _ _ V _ eq_refl)) as (L & _).
  assert (S1 : starts (l ++ [ERet (w_no w) again]) = starts l) by apply (plain_other l (ERet (w_no w) again) I).
  destruct (N.eqb_spec (w_seq w) (t_seq t)) as [EQ|NE].
  - assert (V1 : tinv (Some (w_no w)) tm (l ++ [ERet (w_no w) again]) (set_status Canceled t) \/ ~ fresh ((l ++ [ERet (w_no w) again]) ++ [EDone (w_no w)]) \/ True) by auto. clear V1.
    (* the two events at once: only the history and the status change *)
    constructor; cbn [set_status t_no t_seq t_status t_armed t_queue]; try discriminate.
    + rewrite starts_app, S1. cbn [starts]. rewrite (v_no _ _ _ _ V). lia.
    + apply V.
    + apply V.
    + apply V.
    + intros w' H. rewrite !last_start_snoc. apply (v_armed _ _ _ _ V). exact H.
    + intros F. rewrite !active_snoc. intros A. exfalso. apply fresh_snoc in F. destruct F as (F & F1). specialize (F1 _ eq_refl). rewrite S1 in F1.
      assert (NO : w_no w = t_no t).
      { apply mod_close; [exact L|rewrite (v_no _ _ _ _ V); exact F1|]. rewrite <- SQ, EQ. apply V. }
      apply fresh_snoc in F. destruct F as (F & _). destruct again.
      * rewrite (v_off _ _ _ _ V F A) in NA. discriminate.
      * rewrite NO, (v_no _ _ _ _ V), N.eqb_refl in A. discriminate.
    + intros w' H. do 2 (apply In_snoc; left). apply (v_lab _ _ _ _ V). exact H.
    + intros n H. do 2 (apply In_snoc in H; destruct H as [H|H]; [|discriminate]). apply (v_run _ _ _ _ V). exact H.
    + intros C w' H. rewrite !last_start_snoc. do 2 (apply clean_snoc in C; destruct C as (C & _)). apply (v_time _ _ _ _ V C w'). exact H.
    + apply hist_snoc; [discriminate|]. apply hist_snoc; [discriminate|apply V].
    + apply early_snoc; [discriminate|]. apply early_snoc; [discriminate|apply V].
  - assert (NN : w_no w <> t_no t). { intros E. apply NE. rewrite SQ, E. symmetry. apply V. }
    assert (AE : active (l ++ [ERet (w_no w) again]) = active l).
    { rewrite active_snoc. destruct again; [reflexivity|]. destruct (N.eqb_spec (w_no w) (starts l)); [|reflexivity]. rewrite (v_no _ _ _ _ V) in NN. contradiction. }
    apply (tinv_plain (Some (w_no w)) None tm (l ++ [ERet (w_no w) again]) t t); auto; try discriminate; try exact I.
    + apply (tinv_plain (Some (w_no w)) (Some (w_no w)) tm l t t); auto; try exact I.
      * intros S. rewrite AE. apply V. exact S.
      * intros F. rewrite AE. apply fresh_snoc in F. apply V. apply F.
    + intros S. rewrite active_snoc, AE. apply V. exact S.
    + intros F. rewrite active_snoc, AE. do 2 (apply fresh_snoc in F; destruct F as (F & _)). apply V. exact F.
    + intros S H. congruence.
Qed.

(** the callback returned true and the timer goes on *)
Lemma tinv_again tm l t w : tinv (Some (w_no w)) tm l t -> t_status t = Started ->
  tinv None tm (((l ++ [ERet (w_no w) true]) ++ [EDone (w_no w)]) ++ [EStart (t_no t + 1) tm (t_interval t)]) (start_ti tm t).
Proof.
  intros V ST.
  assert (V1 : tinv (Some (w_no w)) tm ((l ++ [ERet (w_no w) true]) ++ [EDone (w_no w)]) t).
  { apply (tinv_plain (Some (w_no w)) (Some (w_no w)) tm _ t t); auto; try exact I.
    - apply (tinv_plain (Some (w_no w)) (Some (w_no w)) tm l t t); auto; try exact I.
      + intros S. rewrite active_snoc. apply V. exact S.
    - intros S. rewrite !active_snoc. apply V. exact S. }
  apply tinv_start in V1. destruct V1. constructor; auto; try discriminate.
  intros _. left. discriminate.
Qed.

(** A timer that does not exist has only been "stopped". *)
Definition sinv (hole : N -> option N) (s : tsys) (tr : list (N * tev)) : Prop :=
  forall id, match find_timer id (timers s) with
             | Some t => tinv (hole id) (now s) (of_timer id tr) t
             | None => Forall (fun e => e = EStop) (of_timer id tr) /\ hole id = None
             end.

Lemma tinv_new l id tm iv : Forall (fun e => e = EStop) l -> tinv None tm l (new_timer id iv).
Proof.
  intros F.
  assert (X : forall n, ~ In (ERun n) l /\ ~ In (EExpire n) l).
  { intros n. rewrite Forall_forall in F. split; intros H; apply F in H; discriminate. }
  assert (Y : starts l = 0 /\ active l = false /\ (forall a no t b, l <> a ++ EFire no t :: b)).
  { clear X. split; [|split].
    - induction F as [|e l -> F IH]; [reflexivity|exact IH].
    - unfold active. assert (G : forall x, snd x = false -> snd (fold_left active_step l x) = false); [|apply G; reflexivity].
      induction F as [|e l -> F IH]; intros x Hx; [exact Hx|]. cbn [fold_left]. apply IH. reflexivity.
    - intros a no t b E. rewrite Forall_forall in F. assert (In (EFire no t) l) by (rewrite E; apply in_or_app; right; left; reflexivity).
      apply F in H. discriminate. }
  destruct Y as (Y1 & Y2 & Y3).
  constructor; cbn [new_timer t_no t_seq t_status t_armed t_queue waits map app In]; try discriminate; try tauto; auto.
  - constructor.
  - rewrite Y2. discriminate.
  - intros n H. exfalso. exact (proj1 (X n) H).
  - intros a no t0 b E. exfalso. exact (Y3 _ _ _ _ E).
  - intros _ a no t0 b E. exfalso. exact (Y3 _ _ _ _ E).
Qed.

(** one operation on one timer *)
Lemma sinv_upd hole s tr id f evs hole' :
  (forall t, t_id (f t) = t_id t) ->
  sinv hole s tr ->
  (forall id', id' <> id -> of_timer id' evs = []) -> (forall id', id' <> id -> hole' id' = hole id') ->
  (forall t, find_timer id (timers s) = Some t -> tinv (hole id) (now s) (of_timer id tr) t -> tinv (hole' id) (now s) (of_timer id tr ++ of_timer id evs) (f t)) ->
  (find_timer id (timers s) = None -> Forall (fun e => e = EStop) (of_timer id evs) /\ hole' id = None) ->
  sinv hole' (mk_ts (now s) (upd id f (timers s))) (tr ++ evs).
Proof.
  intros FI V O1 O2 HS HN id'. cbn [timers now]. rewrite (find_upd _ _ _ _ FI), of_app. specialize (V id').
  destruct (N.eqb_spec id id') as [<-|NE].
  - destruct (find_timer id (timers s)) as [t|]; cbn [option_map].
    + apply HS; auto.
    + destruct HN as (H1 & H2); [reflexivity|]. destruct V as (V & _). split; [apply Forall_app; auto|exact H2].
  - rewrite O1 by congruence. rewrite app_nil_r. rewrite O2 by congruence. exact V.
Qed.

Lemma of_single_other id id' e : id' <> id -> of_timer id' [(id, e)] = [].
Proof. intros H. rewrite of_one. destruct (N.eqb_spec id id'); [congruence|reflexivity]. Qed.

Lemma sinv_create hole s tr id iv : sinv hole s tr -> sinv hole (create_or_update s id iv) tr.
Proof.
  intros V. unfold create_or_update. destruct (find_timer id (timers s)) as [t|] eqn:F.
  - rewrite <- (app_nil_r tr). apply (sinv_upd hole s tr id _ [] hole); auto.
    + intros t0 _ V0. rewrite app_nil_r. apply tinv_interval. exact V0.
    + congruence.
  - intros id'. cbn [timers now]. rewrite find_app. specialize (V id'). destruct (find_timer id' (timers s)) as [t'|] eqn:F'; [exact V|].
    cbn [new_timer t_id]. destruct (N.eqb_spec id id') as [<-|NE]; [|exact V].
    destruct V as (V1 & V2). rewrite V2. apply tinv_new. exact V1.
Qed.
Lemma sinv_start hole s tr id s1 evs : start_in s id = (s1, evs) -> sinv hole s tr -> sinv hole s1 (tr ++ evs).
Proof.
  unfold start_in. intros E V. destruct (find_timer id (timers s)) as [t|] eqn:F; inversion E; subst; clear E.
  - apply (sinv_upd hole s tr id _ _ hole); auto.
    + intros id' NE. apply of_single_other. exact NE.
    + intros t0 F0 V0. rewrite F in F0. inversion F0; subst. rewrite of_one, N.eqb_refl. apply tinv_start. exact V0.
    + congruence.
  - rewrite app_nil_r. exact V.
Qed.

Lemma stop_ti_id t : t_id (stop_ti t) = t_id t.
Proof. unfold stop_ti. destruct (is_started _); reflexivity. Qed.

Lemma sinv_op hole s tr o s1 evs : do_op s o = (s1, evs) -> sinv hole s tr -> sinv hole s1 (tr ++ evs) /\ now s1 = now s.
Proof.
  intros E V. destruct o as [id iv|id iv|id|id|but|id]; cbn [do_op] in E.
  - split; [eapply sinv_start; [exact E|apply sinv_create; exact V]|].
    unfold start_in, create_or_update in E. destruct (find_timer id (timers s)); cbn [timers now] in E; destruct (find_timer _ _); inversion E; reflexivity.
  - inversion E; subst. rewrite app_nil_r. split; [apply sinv_create; exact V|]. unfold create_or_update. destruct (find_timer _ _); reflexivity.
  - split; [eapply sinv_start; eauto|]. unfold start_in in E. destruct (find_timer _ _); inversion E; reflexivity.
  - inversion E; subst. split; [|reflexivity]. apply (sinv_upd hole s tr id _ _ hole); auto using stop_ti_id.
    + intros id' NE. apply of_single_other. exact NE.
    + intros t0 F0 V0. rewrite of_one, N.eqb_refl. apply tinv_stop. exact V0.
    + intros F. rewrite of_one, N.eqb_refl. split; [auto|]. specialize (V id). rewrite F in V. tauto.
  - inversion E; subst. clear E. split; [|reflexivity]. intros id. cbn [timers now]. rewrite of_app. specialize (V id).
    (* the list of timers may mention an id more than once only in principle *)
    assert (G : forall l, find_timer id (map (fun t => if spared but (t_id t) then t else stop_ti t) l) =
      option_map (fun t => if spared but id then t else stop_ti t) (find_timer id l)).
    { induction l as [|t l IH]; [reflexivity|]. unfold find_timer in *. cbn [map find].
      replace (t_id (if spared but (t_id t) then t else stop_ti t)) with (t_id t) by (destruct (spared but (t_id t)); [|rewrite stop_ti_id]; reflexivity).
      destruct (N.eqb_spec (t_id t) id) as [<-|NE]; [|exact IH]. destruct (spared but (t_id t)) eqn:SP; cbn [option_map]; rewrite ?SP; reflexivity. }
    rewrite G. clear G.
    assert (H : forall l, of_timer id (map (fun t => (t_id t, EStop)) (filter (fun t => negb (spared but (t_id t))) l)) =
      repeat EStop (if spared but id then 0 else length (filter (fun t => t_id t =? id) l))).
    { induction l as [|t l IH]; [destruct (spared but id); reflexivity|]. cbn [filter]. destruct (N.eqb_spec (t_id t) id) as [<-|NE].
      - destruct (spared but (t_id t)) eqn:SP; cbn [negb length map].
        + rewrite IH. reflexivity.
        + rewrite of_cons, IH, of_one, N.eqb_refl. reflexivity.
      - destruct (spared but (t_id t)) eqn:SP; cbn [negb map]; [exact IH|]. rewrite of_cons, IH, of_one.
        destruct (N.eqb_spec (t_id t) id); [contradiction|]. reflexivity. }
    rewrite H. clear H.
    destruct (find_timer id (timers s)) as [t|] eqn:F; cbn [option_map].
    + destruct (spared but id) eqn:SP; [cbn [repeat]; rewrite app_nil_r; exact V|].
      assert (K : exists n, length (filter (fun t => t_id t =? id) (timers s)) = S n).
      { unfold find_timer in F. apply find_some in F. destruct F as (F1 & F2). assert (I1 : In t (filter (fun t => t_id t =? id) (timers s))) by (apply filter_In; auto).
        destruct (filter _ _); [contradiction|]. eexists. reflexivity. }
      destruct K as (n & ->). clear F SP. apply tinv_stop in V. revert V. generalize (of_timer id tr) as l. intros l V.
      assert (ST : stop_ti (stop_ti t) = stop_ti t).
      { unfold stop_ti. destruct (is_started (t_status t)) eqn:S0; [reflexivity|]. rewrite S0. reflexivity. }
      cbn [repeat]. replace (l ++ EStop :: repeat EStop n) with ((l ++ [EStop]) ++ repeat EStop n) by (rewrite <- app_assoc; reflexivity).
      revert V. generalize (l ++ [EStop]) as l1. induction n as [|n IH]; intros l1 V; cbn [repeat]; [rewrite app_nil_r; exact V|].
      replace (l1 ++ EStop :: repeat EStop n) with ((l1 ++ [EStop]) ++ repeat EStop n) by (rewrite <- app_assoc; reflexivity).
      apply IH. rewrite <- ST. apply tinv_stop. exact V.
    + destruct V as (V1 & V2). split; [|exact V2]. apply Forall_app. split; [exact V1|]. rewrite Forall_forall. intros e I. apply repeat_spec in I. exact I.
  - inversion E; subst. split; [|reflexivity]. apply (sinv_upd hole s tr id _ _ hole); auto.
    + intros id' NE. apply of_single_other. exact NE.
    + intros t0 F0 V0. rewrite of_one, N.eqb_refl. apply tinv_mark. exact V0.
    + intros F. rewrite of_one, N.eqb_refl. split; [auto|]. specialize (V id). rewrite F in V. tauto.
Qed.
Lemma sinv_ops hole os : forall s tr s1 evs, do_ops s os = (s1, evs) -> sinv hole s tr -> sinv hole s1 (tr ++ evs) /\ now s1 = now s.
Proof.
  induction os as [|o os IH]; intros s tr s1 evs E V; cbn [do_ops] in E.
  - inversion E; subst. rewrite app_nil_r. auto.
  - destruct (do_op s o) as [s2 l1] eqn:E1. destruct (do_ops s2 os) as [s3 l2] eqn:E2. inversion E; subst.
    destruct (sinv_op _ _ _ _ _ _ E1 V) as (V1 & N1). destruct (IH _ _ _ _ E2 V1) as (V2 & N2). rewrite app_assoc. split; [exact V2|congruence].
Qed.

Definition hole_at (id : N) (h : option N) (i : N) : option N := if id =? i then h else None.

Lemma upd_same id l : upd id (fun t => t) l = l.
Proof. unfold upd. induction l as [|t l IH]; [reflexivity|]. cbn [map]. rewrite IH. destruct (_ =? _); reflexivity. Qed.
Lemma sinv_note hole s tr id e hole' : sinv hole s tr -> (forall id', id' <> id -> hole' id' = hole id') ->
  (forall t, find_timer id (timers s) = Some t -> tinv (hole id) (now s) (of_timer id tr) t -> tinv (hole' id) (now s) (of_timer id tr ++ [e]) t) ->
  find_timer id (timers s) <> None -> sinv hole' s (tr ++ [(id, e)]).
Proof.
  intros V O H NN. destruct s as [tm l]. cbn [timers now] in *. rewrite <- (upd_same id l).
  apply (sinv_upd hole (mk_ts tm l) tr id (fun t => t) [(id, e)] hole'); auto.
  - intros id' NE. apply of_single_other. exact NE.
  - intros t F V0. rewrite of_one, N.eqb_refl. auto.
  - cbn [timers]. congruence.
Qed.

Lemma find_kept_op s o s1 evs id : do_op s o = (s1, evs) -> find_timer id (timers s) <> None -> find_timer id (timers s1) <> None.
Proof.
  assert (U : forall i f l, (forall t, t_id (f t) = t_id t) -> find_timer id l <> None -> find_timer id (upd i f l) <> None).
  { intros i f l F H. rewrite find_upd by exact F. destruct (_ =? _); [|exact H]. destruct (find_timer id l); [discriminate|contradiction]. }
  assert (C : forall st i iv, find_timer id (timers st) <> None -> find_timer id (timers (create_or_update st i iv)) <> None).
  { intros st i iv H. unfold create_or_update. destruct (find_timer i (timers st)); cbn [timers].
    - apply U; auto.
    - rewrite find_app. destruct (find_timer id (timers st)); [discriminate|contradiction]. }
  assert (S : forall st i st1 e, start_in st i = (st1, e) -> find_timer id (timers st) <> None -> find_timer id (timers st1) <> None).
  { intros st i st1 e E H. unfold start_in in E. destruct (find_timer i (timers st)); inversion E; subst; cbn [timers]; [|exact H]. apply U; auto. }
  intros E H. destruct o as [i iv|i iv|i|i|but|i]; cbn [do_op] in E.
  - eapply S; [exact E|]. apply C. exact H.
  - inversion E; subst. apply C. exact H.
  - eapply S; eauto.
  - inversion E; subst. cbn [timers]. apply U; auto using stop_ti_id.
  - inversion E; subst. cbn [timers]. clear E. induction (timers s) as [|t l IH]; [exact H|]. unfold find_timer in *. cbn [map find] in *.
    replace (t_id (if spared but (t_id t) then t else stop_ti t)) with (t_id t) by (destruct (spared but (t_id t)); [|rewrite stop_ti_id]; reflexivity).
    destruct (t_id t =? id); [discriminate|auto].
  - inversion E; subst. cbn [timers]. apply U; auto.
Qed.
Lemma find_kept os id : forall s s1 evs, do_ops s os = (s1, evs) -> find_timer id (timers s) <> None -> find_timer id (timers s1) <> None.
Proof.
  induction os as [|o os IH]; intros s s1 evs E H; cbn [do_ops] in E; [inversion E; subst; exact H|].
  destruct (do_op s o) as [s2 l1] eqn:E1. destruct (do_ops s2 os) as [s3 l2] eqn:E2. inversion E; subst. eapply IH; [exact E2|]. eapply find_kept_op; eauto.
Qed.

Lemma upd_if id (b : bool) f tm l : (if b then (mk_ts tm (upd id f l)) else mk_ts tm l) = mk_ts tm (upd id (fun t => if b then f t else t) l).
Proof. destruct b; [reflexivity|]. rewrite upd_same. reflexivity. Qed.

Lemma sinv_tact s tr a s1 evs : tact s a = Some (s1, evs) -> sinv (fun _ => None) s tr -> sinv (fun _ => None) s1 (tr ++ evs).
Proof.
  intros E V. destruct a as [|id|o|id k script again]; cbn [tact] in E.
  - inversion E; subst. rewrite app_nil_r. intros id. cbn [timers now]. specialize (V id). destruct (find_timer id (timers s)); [|exact V].
    eapply tinv_time; [|exact V]. lia.
  - destruct (find_timer id (timers s)) as [t|] eqn:F; [|discriminate]. destruct (t_armed t) as [w|] eqn:A; [|discriminate].
    destruct (N.leb_spec (w_at w) (now s)) as [L|L]; [|discriminate]. inversion E; subst. clear E.
    eapply sinv_upd with (id := id) (hole := fun _ => None); auto.
    + intros id' NE. apply of_single_other. exact NE.
    + intros t0 F0 V0. rewrite F in F0. inversion F0; subst. rewrite of_one, N.eqb_refl. apply tinv_expire; auto.
    + congruence.
  - inversion E. eapply sinv_op; eauto.
  - destruct (find_timer id (timers s)) as [t|] eqn:F; [|discriminate].
    destruct (nth_error (t_queue t) k) as [[w ok]|] eqn:K; [|discriminate]. inversion E as [E1]. clear E.
    pose proof (V id) as VT. rewrite F in VT.
    assert (WI : In w (waits t)) by (eapply wait_q; eapply nth_error_In; exact K).
    destruct (v_w _ _ _ _ VT w WI) as (WL & WS).
    assert (AB : ok = false -> w_no w = t_no t -> t_status t <> Started).
    { intros -> EN. apply (v_abort _ _ _ _ VT w); [eapply nth_error_In; exact K|exact EN]. }
    assert (TM : ok = true -> clean (of_timer id tr) -> exists t0 iv, last_start (of_timer id tr) = Some (t0, iv) /\ t0 + iv <= now s).
    { intros -> C. apply (v_time _ _ _ _ VT C w). eapply nth_error_In. exact K. }
    set (h := if ok then Some (w_no w) else None) in *.
    set (s0 := mk_ts (now s) (upd id (set_queue (remove_nth k (t_queue t))) (timers s))) in *.
    assert (V0 : sinv (hole_at id h) s0 (tr ++ [(id, ERun (w_no w))])).
    { apply (sinv_upd (fun _ => None) s tr id); auto.
      - intros id' NE. apply of_single_other. exact NE.
      - intros id' NE. unfold hole_at. destruct (N.eqb_spec id id'); [congruence|reflexivity].
      - intros t0 F0 VT0. rewrite F in F0. inversion F0; subst t0. rewrite of_one, N.eqb_refl. unfold hole_at. rewrite N.eqb_refl.
        apply (tinv_run _ _ _ _ _ ok K). exact VT0.
      - congruence. }
    assert (F0 : find_timer id (timers s0) = Some (set_queue (remove_nth k (t_queue t)) t)).
    { unfold s0. cbn [timers]. rewrite find_upd by reflexivity. rewrite N.eqb_refl, F. reflexivity. }
    unfold handler in E1. rewrite F0 in E1. cbn [set_queue t_status] in E1.
    destruct (is_started (t_status t) && ok) eqn:GO.
    + apply andb_true_iff in GO. destruct GO as (ST & OK). subst ok. cbv iota in h.
      assert (STT : t_status t = Started) by (destruct (t_status t); [discriminate|reflexivity|discriminate]).
      destruct (do_ops s0 script) as [s2 l1] eqn:D. destruct (finish s2 id w again) as [s3 l2] eqn:FI. inversion E1; subst s1 evs; clear E1.
      assert (V1 : sinv (hole_at id h) s0 ((tr ++ [(id, ERun (w_no w))]) ++ [(id, EFire (w_no w) (now s0))])).
      { apply (sinv_note (hole_at id h)); auto; [|congruence]. intros t0 F1 VT0. rewrite F0 in F1. inversion F1; subst t0. apply tinv_fire; [exact STT| |exact VT0].
        intros C. rewrite of_app, of_one, N.eqb_refl in C |- *. rewrite last_start_snoc. apply clean_snoc in C. apply TM; [reflexivity|apply C]. }
      destruct (sinv_ops _ _ _ _ _ _ D V1) as (V2 & N2).
      assert (F2 : find_timer id (timers s2) <> None) by (eapply find_kept; [exact D|congruence]).
      unfold finish in FI. destruct (find_timer id (timers s2)) as [t2|] eqn:F2e; [|contradiction].
      set (tr2 := ((tr ++ [(id, ERun (w_no w))]) ++ [(id, EFire (w_no w) (now s0))]) ++ l1) in *.
      assert (G : sinv (fun _ => None) s3 (tr2 ++ ([(id, ERet (w_no w) again)] ++ l2))).
      { destruct (again && is_started (t_status t2)) eqn:AG.
        - apply andb_true_iff in AG. destruct AG as (AG & ST2). subst again.
          assert (STT2 : t_status t2 = Started) by (destruct (t_status t2); [discriminate|reflexivity|discriminate]).
          unfold start_in in FI. rewrite F2e in FI. inversion FI; subst s3 l2. clear FI.
          apply (sinv_upd (hole_at id h) s2 tr2 id); auto.
          + intros id' NE. unfold of_timer. cbn [app filter fst]. destruct (N.eqb_spec id id'); [congruence|reflexivity].
          + intros id' NE. unfold hole_at. destruct (N.eqb_spec id id'); [congruence|reflexivity].
          + intros t0 F3 VT0. rewrite F2e in F3. inversion F3; subst t0. unfold hole_at in VT0. rewrite N.eqb_refl in VT0.
            unfold of_timer at 2. cbn [app filter fst]. rewrite N.eqb_refl. cbn [map snd].
            pose proof (tinv_again _ _ _ w VT0 STT2) as X. rewrite <- !app_assoc in X. exact X.
          + congruence.
        - assert (FI' : s3 = mk_ts (now s2) (upd id (fun t => if w_seq w =? t_seq t2 then set_status Canceled t else t) (timers s2)) /\ l2 = [(id, EDone (w_no w))]).
          { rewrite <- upd_if. destruct (w_seq w =? t_seq t2); inversion FI; split; try reflexivity. destruct s3; reflexivity. }
          destruct FI' as (-> & ->).
          apply (sinv_upd (hole_at id h) s2 tr2 id); auto.
          + intros t0. destruct (_ =? _); reflexivity.
          + intros id' NE. rewrite !of_app, !of_single_other by exact NE. reflexivity.
          + intros id' NE. unfold hole_at. destruct (N.eqb_spec id id'); [congruence|reflexivity].
          + intros t0 F3 VT0. rewrite F2e in F3. inversion F3; subst t0. unfold hole_at in VT0. rewrite N.eqb_refl in VT0.
            unfold of_timer at 2. cbn [app filter fst]. rewrite N.eqb_refl. cbn [map snd].
            pose proof (tinv_ended _ _ _ w again VT0 WS AG) as X. rewrite <- !app_assoc in X. exact X.
          + congruence. }
      unfold tr2 in G. rewrite <- !app_assoc in G. cbn [app] in G. exact G.
    + destruct (finish s0 id w false) as [s3 l2] eqn:FI. inversion E1; subst s1 evs; clear E1.
      unfold finish in FI. rewrite F0 in FI. cbn [andb set_queue t_seq] in FI.
      assert (FI' : s3 = mk_ts (now s0) (upd id (fun t0 => if w_seq w =? t_seq t then set_status Canceled t0 else t0) (timers s0)) /\ l2 = [(id, EDone (w_no w))]).
      { rewrite <- upd_if. destruct (w_seq w =? t_seq t); inversion FI; split; reflexivity. }
      destruct FI' as (-> & ->).
      assert (G : sinv (fun _ => None) (mk_ts (now s0) (upd id (fun t0 => if w_seq w =? t_seq t then set_status Canceled t0 else t0) (timers s0))) ((tr ++ [(id, ERun (w_no w))]) ++ [(id, EDone (w_no w))])).
      { apply (sinv_upd (hole_at id h) s0 _ id); auto.
        - intros t0. destruct (_ =? _); reflexivity.
        - intros id' NE. apply of_single_other. exact NE.
        - intros id' NE. unfold hole_at. destruct (N.eqb_spec id id'); [congruence|reflexivity].
        - intros t0 F3 VT0. rewrite F0 in F3. inversion F3; subst t0. unfold hole_at in VT0. rewrite N.eqb_refl in VT0. rewrite of_one, N.eqb_refl.
          apply (tinv_ignored h _ _ _ w ok VT0); auto.
        - congruence. }
      rewrite <- app_assoc in G. exact G.
Qed.

Lemma sinv_tacts al : forall s tr s1 evs, tacts s al = Some (s1, evs) -> sinv (fun _ => None) s tr -> sinv (fun _ => None) s1 (tr ++ evs).
Proof.
  induction al as [|a al IH]; intros s tr s1 evs E V; cbn [tacts] in E.
  - inversion E; subst. rewrite app_nil_r. exact V.
  - destruct (tact s a) as [[s2 l1]|] eqn:E1; [|discriminate]. destruct (tacts s2 al) as [[s3 l2]|] eqn:E2; [|discriminate]. inversion E; subst.
    rewrite app_assoc. eapply IH; [exact E2|]. eapply sinv_tact; eauto.
Qed.
Lemma timers_inv al s tr : tacts no_timers al = Some (s, tr) -> sinv (fun _ => None) s tr.
Proof. intros E. apply (sinv_tacts al no_timers [] s tr E). intros id. cbn. auto. Qed.
