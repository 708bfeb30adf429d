(** C39, C40, C59, C65, C66: timers. *)
From Coq Require Import List NArith Bool Arith Lia ZifyBool ZifyNat ZifyN.
From Verif Require Import M_Timer S_Timer L_Timer M_TimerIds.
Import ListNotations.
Open Scope N_scope.

Local Ltac run_it := do 2 eexists; split; [vm_compute; reflexivity|]; repeat match goal with |- _ /\ _ => split end; (vm_compute; reflexivity).

Lemma inactive_kept b : (forall n t i, ~ In (EStart n t i) b) -> forall x, snd x = false -> snd (fold_left active_step b x) = false.
Proof.
  induction b as [|e b IH]; intros NS x H; [exact H|]. cbn [fold_left]. apply IH.
  - intros n t i I. apply (NS n t i). right. exact I.
  - destruct e as [n t i| | | | |n [|]|]; cbn [active_step snd]; auto. exfalso. apply (NS n t i). left. reflexivity. destruct (_ =? _); auto.
Qed.
Lemma started_since a e b : active (a ++ [e]) = false -> active (a ++ e :: b) = true -> exists n t i, In (EStart n t i) b.
Proof.
  intros A0 A. replace (a ++ e :: b) with ((a ++ [e]) ++ b) in A by (rewrite <- app_assoc; reflexivity).
  assert (D : (exists n t i, In (EStart n t i) b) \/ (forall n t i, ~ In (EStart n t i) b)).
  { clear. induction b as [|x b [(n & t & i & I)|IH]].
    - right. intros n t i [].
    - left. exists n, t, i. right. exact I.
    - destruct x as [n t i| | | | | |]; [left; exists n, t, i; left; reflexivity| | | | | |]; right; intros n' t' i' [H|H]; try discriminate; exact (IH _ _ _ H). }
  destruct D as [D|D]; [exact D|]. exfalso. unfold active in *. rewrite fold_left_app in A. rewrite (inactive_kept b D) in A; [discriminate|exact A0].
Qed.

(** ** C39: a stopped timer stays silent until it is started again; one whose callback returns false ends. *)
Theorem C39_stopped_is_silent al s tr id a b c no t :
  tacts no_timers al = Some (s, tr) -> of_timer id tr = a ++ EStop :: b ++ EFire no t :: c ->
  exists n t' i, In (EStart n t' i) b.
Proof.
  intros R E. pose proof (timers_inv _ _ _ R id) as V. destruct (find_timer id (timers s)) as [ti|].
  - apply (started_since a EStop b); [apply active_snoc|].
    apply (v_fire _ _ _ _ V (a ++ EStop :: b) no t c). rewrite <- app_assoc. exact E.
  - destruct V as (V & _). rewrite Forall_forall in V. exfalso.
    assert (I : In (EFire no t) (of_timer id tr)) by (rewrite E; apply in_or_app; right; right; apply in_or_app; right; left; reflexivity).
    apply V in I. discriminate.
Qed.
Print Assumptions C39_stopped_is_silent.

(** stopped while two expirations were on their way, silent; started again, it fires *)
Definition ex_stop : list taction :=
  [AOp (OSet 7 2); ATick; ATick; AExpire 7; AOp (OStop 7); AHandle 7 0 [] true; AOp (OStart 7); ATick; ATick; AExpire 7; AHandle 7 0 [] true].
Example C39_stopped_example : exists s tr, tacts no_timers ex_stop = Some (s, tr) /\
  of_timer 7 tr = [EStart 1 0 2; EExpire 1] ++ EStop :: [ERun 1; EDone 1; EStart 2 2 2; EExpire 2; ERun 2] ++ EFire 2 4 :: [ERet 2 true; EDone 2; EStart 3 4 2].
Proof. run_it. Qed.

Theorem C39_false_ends al s tr id a b c n no t :
  tacts no_timers al = Some (s, tr) -> of_timer id tr = a ++ ERet n false :: b ++ EFire no t :: c ->
  n = starts a -> exists n' t' i, In (EStart n' t' i) b.
Proof.
  intros R E NS. pose proof (timers_inv _ _ _ R id) as V. destruct (find_timer id (timers s)) as [ti|].
  - apply (started_since a (ERet n false) b); [rewrite active_snoc, NS, N.eqb_refl; reflexivity|].
    apply (v_fire _ _ _ _ V (a ++ ERet n false :: b) no t c). rewrite <- app_assoc. exact E.
  - destruct V as (V & _). rewrite Forall_forall in V. exfalso.
    assert (I : In (EFire no t) (of_timer id tr)) by (rewrite E; apply in_or_app; right; right; apply in_or_app; right; left; reflexivity).
    apply V in I. discriminate.
Qed.
Print Assumptions C39_false_ends.

Example C39_false_example : exists s tr, tacts no_timers
  [AOp (OSet 7 0); AExpire 7; AHandle 7 0 [] false; ATick; AOp (OStart 7); AExpire 7; AHandle 7 0 [] false] = Some (s, tr) /\
  of_timer 7 tr = [EStart 1 0 0; EExpire 1; ERun 1; EFire 1 0] ++ ERet 1 false :: [EDone 1; EStart 2 1 0; EExpire 2; ERun 2] ++ EFire 2 1 :: [ERet 2 false; EDone 2] /\
  1 = starts [EStart 1 0 0; EExpire 1; ERun 1; EFire 1 0].
Proof. run_it. Qed.

(** is_timer(id), include/timer.h:143: the timer is reported as running *)
Definition is_timer (s : tsys) (id : N) : bool := match find_timer id (timers s) with Some t => is_started (t_status t) | None => false end.
(** actions of time and of this timer alone, with a callback that does nothing to timers *)
Definition only_timer (id : N) (a : taction) : Prop :=
  match a with ATick => True | AExpire i => i = id | AHandle i _ script _ => i = id /\ script = [] | AOp _ => False end.

(** A timer reported as running fires: nothing but time is needed for the next invocation of its callback. *)
Theorem C39_running_fires al s tr id : tacts no_timers al = Some (s, tr) -> is_timer s id = true ->
  exists al' s' tr' no t, Forall (only_timer id) al' /\ tacts s al' = Some (s', tr') /\ In (id, EFire no t) tr'.
Proof.
  intros R ST. pose proof (timers_inv _ _ _ R id) as V. unfold is_timer in ST. destruct (find_timer id (timers s)) as [t|] eqn:F; [|discriminate].
  assert (STT : t_status t = Started) by (destruct (t_status t); [discriminate|reflexivity|discriminate]).
  assert (FIRE : forall s0 t0 k w, find_timer id (timers s0) = Some t0 -> t_status t0 = Started -> nth_error (t_queue t0) k = Some (w, true) ->
    exists s' tr' no tm, tacts s0 [AHandle id k [] false] = Some (s', tr') /\ In (id, EFire no tm) tr').
  { intros s0 t0 k w F0 S0 K. cbn [tacts tact]. rewrite F0, K. unfold handler. cbn [timers].
    rewrite find_upd by reflexivity. rewrite N.eqb_refl, F0. cbn [option_map set_queue t_status]. rewrite S0. cbn [is_started andb do_ops].
    destruct (finish _ id w false) as [s2 l2]. do 4 eexists. split; [reflexivity|]. right. left. reflexivity. }
  destruct (v_pend _ _ _ _ V STT) as [A|[(w & A & _)|A]]; [| |discriminate].
  - destruct (t_armed t) as [w|] eqn:AR; [|contradiction]. clear A.
    assert (TICKS : forall n s0, tacts s0 (repeat ATick n) = Some (mk_ts (now s0 + N.of_nat n) (timers s0), [])).
    { induction n as [|n IH]; intros s0; cbn [repeat tacts tact].
      - destruct s0 as [tm ts]. cbn [now timers]. f_equal. f_equal. f_equal. lia.
      - rewrite IH. cbn [now timers app]. f_equal. f_equal. f_equal. lia. }
    set (s0 := mk_ts (now s + N.of_nat (N.to_nat (w_at w))) (timers s)).
    set (upd1 := fun t => mk_t (t_id t) (t_seq t) (t_status t) (t_interval t) None (t_queue t ++ [(w, true)]) (t_no t)).
    set (s1 := mk_ts (now s0) (upd id upd1 (timers s))).
    assert (F1 : find_timer id (timers s1) = Some (upd1 t)).
    { unfold s1. cbn [timers]. rewrite find_upd by reflexivity. rewrite N.eqb_refl, F. reflexivity. }
    destruct (FIRE s1 (upd1 t) (length (t_queue t)) w F1 STT) as (s' & tr' & no & tm & E & I).
    { unfold upd1. cbn [t_queue]. rewrite nth_error_app2 by lia. rewrite Nat.sub_diag. reflexivity. }
    exists (repeat ATick (N.to_nat (w_at w)) ++ AExpire id :: [AHandle id (length (t_queue t)) [] false]), s', ((id, EExpire (w_no w)) :: tr'), no, tm.
    split; [|split].
    + apply Forall_app. split; [rewrite Forall_forall; intros x X; apply repeat_spec in X; subst; exact I0 || exact Logic.I|].
      constructor; [reflexivity|]. constructor; [cbn; auto|constructor].
    + assert (APP : forall al1 al2 s2 s3 s4 t3 t4, tacts s2 al1 = Some (s3, t3) -> tacts s3 al2 = Some (s4, t4) -> tacts s2 (al1 ++ al2) = Some (s4, t3 ++ t4)).
      { induction al1 as [|x al1 IH]; intros al2 s2 s3 s4 t3 t4 E1 E2; cbn [app tacts] in *.
        - inversion E1; subst. exact E2.
        - destruct (tact s2 x) as [[s5 t5]|]; [|discriminate]. destruct (tacts s5 al1) as [[s6 t6]|] eqn:E6; [|discriminate]. inversion E1; subst.
          rewrite (IH al2 _ _ _ _ _ E6 E2). rewrite app_assoc. reflexivity. }
      apply (APP _ _ s s0 s' [] _ (TICKS _ _)). 
      assert (EX : tact s0 (AExpire id) = Some (s1, [(id, EExpire (w_no w))])).
      { cbn [tact]. unfold s0 at 1. cbn [timers]. rewrite F, AR.
      destruct (N.leb_spec (w_at w) (now s0)) as [L|L]; [|unfold s0 in L; cbn [now] in L; lia].
        reflexivity. }
      set (rest := [AHandle id (length (t_queue t)) [] false]) in *. cbn [tacts].
      rewrite EX, E. reflexivity.
    + right. exact I.
  - apply In_nth_error in A. destruct A as (k & K). destruct (FIRE s t k w F STT K) as (s' & tr' & no & tm & E & I).
    exists [AHandle id k [] false], s', tr', no, tm. split; [|auto]. constructor; [cbn; auto|constructor].
Qed.
Print Assumptions C39_running_fires.

Example C39_running_example : exists s tr, tacts no_timers [AOp (OSet 7 2); ATick; ATick; AExpire 7; AHandle 7 0 [] true] = Some (s, tr) /\ is_timer s 7 = true.
Proof. run_it. Qed.

(** does the operation stop that timer? *)
Definition stops (id : N) (o : top) : bool :=
  match o with OStop i | OMark i => i =? id | OStopAll but => match but with Some b => negb (b =? id) | None => true end | _ => false end.
Lemma is_timer_find s id : is_timer s id = true -> exists t, find_timer id (timers s) = Some t /\ t_status t = Started.
Proof. unfold is_timer. destruct (find_timer id (timers s)) as [t|]; [|discriminate]. intros H. exists t. split; [reflexivity|]. destruct (t_status t); [discriminate|reflexivity|discriminate]. Qed.
Lemma is_timer_upd s id i f : (forall t, t_id (f t) = t_id t) -> (i = id -> forall t, t_status t = Started -> t_status (f t) = Started) ->
  is_timer s id = true -> is_timer (mk_ts (now s) (upd i f (timers s))) id = true.
Proof.
  intros F K H. apply is_timer_find in H. destruct H as (t & H1 & H2). unfold is_timer. cbn [timers]. rewrite find_upd by exact F.
  rewrite H1. destruct (N.eqb_spec i id) as [E|NE]; cbn [option_map]; [rewrite (K E _ H2)|rewrite H2]; reflexivity.
Qed.
Lemma is_timer_start s id i : is_timer s id = true -> is_timer (fst (start_in s i)) id = true.
Proof. intros H. unfold start_in. destruct (find_timer i (timers s)); cbn [fst]; [|exact H]. apply is_timer_upd; auto. Qed.
Lemma is_timer_create s id i iv : is_timer s id = true -> is_timer (create_or_update s i iv) id = true.
Proof.
  intros H. unfold create_or_update. destruct (find_timer i (timers s)); [apply is_timer_upd; auto|].
  apply is_timer_find in H. destruct H as (t & H1 & H2). unfold is_timer. cbn [timers]. rewrite find_app, H1, H2. reflexivity.
Qed.
Lemma is_timer_ops id os : forall s, forallb (fun o => negb (stops id o)) os = true -> is_timer s id = true -> is_timer (fst (do_ops s os)) id = true.
Proof.
  induction os as [|o os IH]; intros s F H; cbn [do_ops forallb] in *; [exact H|]. apply andb_true_iff in F. destruct F as (F1 & F2).
  assert (H1 : is_timer (fst (do_op s o)) id = true).
  { destruct o as [i iv|i iv|i|i|but|i]; cbn [do_op stops] in *.
    - apply is_timer_start, is_timer_create, H.
    - apply is_timer_create, H.
    - apply is_timer_start, H.
    - apply is_timer_upd; [apply stop_ti_id| |exact H]. intros ->. rewrite N.eqb_refl in F1. discriminate.
    - apply is_timer_find in H. destruct H as (t & H1 & H2). unfold is_timer. cbn [fst timers].
      assert (G : find_timer id (map (fun t => if spared but (t_id t) then t else stop_ti t) (timers s)) = Some t).
      { clear F2 IH. induction (timers s) as [|x l IHl]; cbn [map find_timer find] in *; [discriminate|].
        assert (X : t_id (if spared but (t_id x) then x else stop_ti x) = t_id x) by (destruct (spared but (t_id x)); [reflexivity|apply stop_ti_id]).
        rewrite X. destruct (N.eqb_spec (t_id x) id) as [E|NE]; [|exact (IHl H1)]. inversion H1; subst. unfold spared. destruct but as [b|]; [|discriminate F1]. destruct (b =? t_id t); [reflexivity|discriminate F1]. }
      rewrite G, H2. reflexivity.
    - apply is_timer_upd; [reflexivity| |exact H]. intros ->. rewrite N.eqb_refl in F1. discriminate. }
  destruct (do_op s o) as [s1 l1]. cbn [fst] in H1. specialize (IH s1 F2 H1). destruct (do_ops s1 os) as [s2 l2]. exact IH.
Qed.

(** stop_all_timer stops every timer but the one excepted, which it leaves alone, and reports that it has stopped each. *)
Theorem C39_stop_all s but s' tr : do_op s (OStopAll but) = (s', tr) -> forall id,
  (but <> Some id -> is_timer s' id = false /\ (is_timer s id = true -> In (id, EStop) tr)) /\ (but = Some id -> find_timer id (timers s') = find_timer id (timers s) /\ ~ In (id, EStop) tr).
Proof.
  intros H id. cbn [do_op] in H. inversion H; subst. clear H. unfold is_timer. cbn [timers].
  assert (G : forall l, find_timer id (map (fun t => if spared but (t_id t) then t else stop_ti t) l) = option_map (fun t => if spared but id then t else stop_ti t) (find_timer id l)).
  { induction l as [|t l IH]; [reflexivity|]. cbn [map find_timer find]. replace (t_id (if spared but (t_id t) then t else stop_ti t)) with (t_id t) by (destruct (spared but (t_id t)); [|rewrite stop_ti_id]; reflexivity).
    destruct (N.eqb_spec (t_id t) id) as [<-|NE]; [|exact IH]. reflexivity. }
  rewrite G. split.
  - intros B. assert (SP : spared but id = false). { unfold spared. destruct but as [b|]; [|reflexivity]. apply N.eqb_neq. congruence. }
    rewrite SP. split.
    + destruct (find_timer id (timers s)) as [t|]; cbn [option_map]; [|reflexivity]. unfold stop_ti. destruct (t_status t) eqn:E; cbn [is_started t_status]; rewrite ?E; reflexivity.
    + intros R. destruct (find_timer id (timers s)) as [t|] eqn:F; [|discriminate R]. unfold find_timer in F. apply find_some in F. destruct F as [F1 F2]. apply N.eqb_eq in F2. apply in_map_iff. exists t. split; [rewrite F2; reflexivity|].
      apply filter_In. rewrite F2, SP. auto.
  - intros ->. unfold spared. rewrite N.eqb_refl. split; [destruct (find_timer id (timers s)); reflexivity|]. intros I. apply in_map_iff in I. destruct I as (t & E & I). inversion E as [E1]. apply filter_In in I. rewrite E1, N.eqb_refl in I. destruct I. discriminate.
Qed.
Print Assumptions C39_stop_all.
Example C39_stop_all_example : exists s tr s1 s2, tacts no_timers [AOp (OSet 7 2); AOp (OSet 8 2)] = Some (s, tr) /\ do_op s (OStopAll None) = (s1, [(7, EStop); (8, EStop)]) /\
  map (is_timer s1) [7; 8] = [false; false] /\ do_op s (OStopAll (Some 8)) = (s2, [(7, EStop)]) /\ map (is_timer s2) [7; 8] = [false; true].
Proof. do 4 eexists. split; [vm_compute; reflexivity|]. split; [vm_compute; reflexivity|]. split; [reflexivity|]. split; [vm_compute; reflexivity|reflexivity]. Qed.

(** A callback that returns true without having stopped its timer leaves the timer running. *)
Theorem C39_true_keeps_running s id k script s' tr' : tact s (AHandle id k script true) = Some (s', tr') ->
  (exists no t, In (id, EFire no t) tr') -> forallb (fun o => negb (stops id o)) script = true -> is_timer s' id = true.
Proof.
  cbn [tact]. destruct (find_timer id (timers s)) as [t|] eqn:F; [|discriminate]. destruct (nth_error (t_queue t) k) as [[w ok]|]; [|discriminate].
  set (s0 := mk_ts _ _). intros E (no & tm & I) SC. inversion E as [E']. clear E. unfold handler in E'.
  destruct (find_timer id (timers s0)) as [t0|] eqn:F0.
  2:{ inversion E'; subst. destruct I. }
  destruct (is_started (t_status t0) && ok) eqn:G.
  - apply andb_true_iff in G. destruct G as (G & _). assert (H0 : is_timer s0 id = true) by (unfold is_timer; rewrite F0; exact G).
    pose proof (is_timer_ops id script s0 SC H0) as H1. destruct (do_ops s0 script) as [s1 l1]. cbn [fst] in H1.
    unfold finish in E'. apply is_timer_find in H1. destruct H1 as (t1 & F1 & S1). rewrite F1, S1 in E'. cbn [is_started andb] in E'.
    unfold start_in in E'. rewrite F1 in E'. inversion E'; subst. unfold is_timer. cbn [timers]. rewrite find_upd by reflexivity. rewrite N.eqb_refl, F1. reflexivity.
  - unfold finish in E'. rewrite F0 in E'. cbn [andb] in E'. destruct (w_seq w =? t_seq t0); inversion E'; subst; cbn [In] in I; intuition congruence.
Qed.
Print Assumptions C39_true_keeps_running.
Example C39_true_example : exists s tr s' tr', tacts no_timers [AOp (OSet 7 2); AOp (OSet 8 2); ATick; ATick; AExpire 7] = Some (s, tr) /\
  tact s (AHandle 7 0 [OStopAll (Some 7); OUpdate 7 3] true) = Some (s', tr') /\ tr' = [(7, ERun 1); (7, EFire 1 2); (8, EStop); (7, ERet 1 true); (7, EDone 1); (7, EStart 2 2 3)] /\
  forallb (fun o => negb (stops 7 o)) [OStopAll (Some 7); OUpdate 7 3] = true.
Proof. do 4 eexists. split; [vm_compute; reflexivity|]. split; [vm_compute; reflexivity|]. split; vm_compute; reflexivity. Qed.

(** ** C66: the callback is invoked at the earliest one interval after the timer was started. *)
Definition C66_statement : Prop := forall al s tr id a no t c t0 iv,
  tacts no_timers al = Some (s, tr) -> of_timer id tr = a ++ EFire no t :: c -> last_start a = Some (t0, iv) -> t0 + iv <= t.

(** False: an expiration queued before the timer is stopped and started again invokes the callback at once. *)
Definition ex_early : list taction := [AOp (OSet 7 2); ATick; ATick; AExpire 7; AOp (OStop 7); AOp (OSet 7 100); AHandle 7 0 [] false].
Theorem C66_refuted : exists al s tr, tacts no_timers al = Some (s, tr) /\
  of_timer 7 tr = [EStart 1 0 2; EExpire 1; EStop; EStart 2 2 100; ERun 1] ++ EFire 1 2 :: [ERet 1 false; EDone 1] /\
  last_start [EStart 1 0 2; EExpire 1; EStop; EStart 2 2 100; ERun 1] = Some (2, 100).
Proof. exists ex_early. run_it. Qed.
Print Assumptions C66_refuted.
Theorem C66_statement_refuted : ~ C66_statement.
Proof.
  intros H. destruct C66_refuted as (al & s & tr & R & E & L). specialize (H _ _ _ 7 _ _ _ _ _ _ R E L). lia.
Qed.
Print Assumptions C66_statement_refuted.

(** It holds if no expiration of the timer is queued whenever it is started. *)
Theorem C66_partial al s tr id a no t c t0 iv :
  tacts no_timers al = Some (s, tr) -> clean (of_timer id tr) ->
  of_timer id tr = a ++ EFire no t :: c -> last_start a = Some (t0, iv) -> t0 + iv <= t.
Proof.
  intros R C E L. pose proof (timers_inv _ _ _ R id) as V. destruct (find_timer id (timers s)) as [ti|].
  - destruct (v_early _ _ _ _ V C a no t c E) as (t1 & iv1 & L1 & LE). rewrite L in L1. inversion L1; subst. exact LE.
  - destruct V as (V & _). rewrite Forall_forall in V. exfalso.
    assert (I : In (EFire no t) (of_timer id tr)) by (rewrite E; apply in_or_app; right; left; reflexivity).
    apply V in I. discriminate.
Qed.
Print Assumptions C66_partial.

Local Fixpoint chk (run exp l : list tev) : bool :=
  match l with
  | [] => true
  | EStart _ _ _ :: l' => forallb (fun e => match e with EExpire n => existsb (fun r => match r with ERun m => m =? n | _ => false end) run | _ => true end) exp && chk run exp l'
  | ERun n :: l' => chk (ERun n :: run) exp l'
  | EExpire n :: l' => chk run (EExpire n :: exp) l'
  | _ :: l' => chk run exp l'
  end.
Lemma clean_check l : chk [] [] l = true -> clean l.
Proof.
  intros H.
  assert (G : forall l run exp p, (forall n, In (ERun n) run -> In (ERun n) p) -> (forall n, In (EExpire n) p -> In (EExpire n) exp) -> chk run exp l = true ->
    forall a no t i b, l = a ++ EStart no t i :: b -> forall n, In (EExpire n) (p ++ a) -> In (ERun n) (p ++ a)).
  { clear. induction l as [|e l IH]; intros run exp p P1 P2 H a no t i b E n I; [destruct a; discriminate|].
    destruct a as [|x a]; cbn [app] in E; inversion E; subst.
    - rewrite app_nil_r in *. cbn in H. apply andb_true_iff in H. destruct H as (H & _). rewrite forallb_forall in H. specialize (H _ (P2 n I)). cbn in H.
      apply existsb_exists in H. destruct H as (r & R1 & R2). destruct r as [| | |m| | |]; try discriminate. apply P1. apply N.eqb_eq in R2. subst. exact R1.
    - replace (p ++ x :: a) with ((p ++ [x]) ++ a) in * by (rewrite <- app_assoc; reflexivity).
      assert (X : exists run' exp', chk run' exp' (a ++ EStart no t i :: b) = true /\ (forall n, In (ERun n) run' -> In (ERun n) (p ++ [x])) /\ (forall n, In (EExpire n) (p ++ [x]) -> In (EExpire n) exp')).
      { destruct x; cbn [chk] in H; try (apply andb_true_iff in H; destruct H as (_ & H)); do 2 eexists; (split; [exact H|]); split; intros m M; rewrite in_app_iff in *;
          cbn [In] in *; intuition (try discriminate; try congruence; auto). }
      destruct X as (run' & exp' & X1 & X2 & X3). eapply (IH run' exp' (p ++ [x]) X2 X3 X1); [reflexivity|exact I]. }
  intros a no t i b E n I. apply (G l [] [] [] ltac:(intros ? []) ltac:(intros ? []) H a no t i b E n I).
Qed.
Example C66_example : exists s tr,
  tacts no_timers [AOp (OSet 7 2); ATick; ATick; AExpire 7; AHandle 7 0 [OSet 7 3] false; ATick; ATick; ATick; AExpire 7; AHandle 7 0 [] false] = Some (s, tr) /\
  clean (of_timer 7 tr) /\ of_timer 7 tr = [EStart 1 0 2; EExpire 1; ERun 1; EFire 1 2; EStart 2 2 3; ERet 1 false; EDone 1; EExpire 2; ERun 2] ++ EFire 2 5 :: [ERet 2 false; EDone 2] /\
  last_start [EStart 1 0 2; EExpire 1; ERun 1; EFire 1 2; EStart 2 2 3; ERet 1 false; EDone 1; EExpire 2; ERun 2] = Some (2, 3).
Proof. do 2 eexists. split; [vm_compute; reflexivity|]. split; [apply clean_check; vm_compute; reflexivity|split; vm_compute; reflexivity]. Qed.

(** ** C40: a timer that should be running is running. *)
Definition C40_statement : Prop := forall al s tr id,
  tacts no_timers al = Some (s, tr) -> active (of_timer id tr) = true -> is_timer s id = true.

(** False: 256 starts while the callback runs wrap the 8-bit sequence number; the timer is marked cancelled and
    never fires again although it was started and not stopped. *)
Definition ex_wrap : list taction :=
  [AOp (OSet 7 0); AExpire 7; AHandle 7 0 (repeat (OSet 7 0) 256) false] ++ repeat (AHandle 7 0 [] true) 255 ++ [AExpire 7; AHandle 7 0 [] true].
Theorem C40_refuted : exists al s tr, tacts no_timers al = Some (s, tr) /\
  active (of_timer 7 tr) = true /\ is_timer s 7 = false /\ option_map (fun t => (t_armed t, t_queue t)) (find_timer 7 (timers s)) = Some (None, []) /\
  length (filter (fun e => match e with EFire _ _ => true | _ => false end) (of_timer 7 tr)) = 1%nat.
Proof. exists ex_wrap. run_it. Qed.
Print Assumptions C40_refuted.
Theorem C40_statement_refuted : ~ C40_statement.
Proof. intros H. destruct C40_refuted as (al & s & tr & R & A & B & _). rewrite (H _ _ _ 7 R A) in B. discriminate. Qed.
Print Assumptions C40_statement_refuted.

(** It holds if a handler never decides after 256 or more later starts of its timer; then a running timer also
    has its expiration pending (C39_running_fires). *)
Theorem C40_partial al s tr id : tacts no_timers al = Some (s, tr) -> fresh (of_timer id tr) ->
  (active (of_timer id tr) = true <-> is_timer s id = true).
Proof.
  intros R FR. pose proof (timers_inv _ _ _ R id) as V. unfold is_timer. destruct (find_timer id (timers s)) as [t|].
  - split; intros A.
    + rewrite (v_off _ _ _ _ V FR A). reflexivity.
    + apply V. destruct (t_status t); [discriminate|reflexivity|discriminate].
  - destruct V as (V & _). split; [|discriminate]. intros A. exfalso.
    unfold active in A. rewrite inactive_kept in A; [discriminate| |reflexivity].
    intros n t i I. rewrite Forall_forall in V. apply V in I. discriminate.
Qed.
Print Assumptions C40_partial.

Lemma fresh_few l : starts l < 256 -> fresh l.
Proof. intros H a no b ->. rewrite starts_app in H. lia. Qed.
(** the callback restarts its own timer 200 times and returns false: it stays active *)
Example C40_example : exists s tr, tacts no_timers [AOp (OSet 7 5); ATick; ATick; ATick; ATick; ATick; AExpire 7; AHandle 7 0 (repeat (OSet 7 0) 200) false; AHandle 7 0 [] true] = Some (s, tr) /\
  fresh (of_timer 7 tr) /\ active (of_timer 7 tr) = true.
Proof. do 2 eexists. split; [vm_compute; reflexivity|]. split; [apply fresh_few; vm_compute; reflexivity|vm_compute; reflexivity]. Qed.

(** ** C59: the timers of different classes and different timers of one class do not touch each other. *)
Lemma chain_bounds ls : forall begin, Forall (fun l => Forall (fun o => o < width l) (offsets l)) ls ->
  begin + fold_right (fun l n => width l + n) 0 ls < 65536 ->
  Forall (fun i => begin <= i /\ i < begin + fold_right (fun l n => width l + n) 0 ls) (chain_ids begin ls).
Proof.
  induction ls as [|l ls IH]; intros begin F B; cbn [chain_ids fold_right] in *; [constructor|]. inversion F as [|? ? F1 F2]; subst.
  apply Forall_app. split.
  - rewrite Forall_forall in *. intros i I. apply in_map_iff in I. destruct I as (o & <- & I). apply F1 in I. rewrite N.mod_small by lia. lia.
  - rewrite N.mod_small by lia. assert (B' : begin + width l + fold_right (fun l n => width l + n) 0 ls < 65536) by lia. specialize (IH _ F2 B').
    rewrite Forall_forall in *. intros i I. apply IH in I. lia.
Qed.
(** For any chain of classes, library or application, that each take distinct ids below their own TIMER_END. *)
Theorem C59_ids_distinct ls : Forall (fun l => NoDup (offsets l) /\ Forall (fun o => o < width l) (offsets l)) ls ->
  fold_right (fun l n => width l + n) 0 ls < 65536 -> NoDup (chain_ids timer_end ls).
Proof.
  unfold timer_end. rewrite <- (N.add_0_l (fold_right _ 0 ls)). generalize 0 at 1 3 as begin. induction ls as [|l ls IH]; intros begin F B; cbn [chain_ids fold_right] in *; [constructor|].
  inversion F as [|? ? (F1 & F2) F3]; subst. rewrite (N.mod_small (begin + width l)) by lia.
  assert (B' : begin + width l + fold_right (fun l n => width l + n) 0 ls < 65536) by lia.
  assert (F4 : Forall (fun l => Forall (fun o => o < width l) (offsets l)) ls) by (eapply Forall_impl; [|exact F3]; cbn; tauto).
  pose proof (chain_bounds ls _ F4 B') as CB. specialize (IH _ F3 B').
  assert (M : map (fun o => (begin + o) mod 65536) (offsets l) = map (fun o => begin + o) (offsets l)).
  { apply map_ext_in. intros o I. rewrite Forall_forall in F2. apply F2 in I. apply N.mod_small. lia. }
  rewrite M. clear M. revert F1 F2. induction (offsets l) as [|o os IHo]; intros N1 F2; cbn [map app]; [exact IH|].
  inversion N1; subst. inversion F2; subst. constructor; [|auto]. rewrite in_app_iff. intros [I|I].
  - apply in_map_iff in I. destruct I as (o' & E & I). assert (o' = o) by lia. congruence.
  - rewrite Forall_forall in CB. apply CB in I. lia.
Qed.
Print Assumptions C59_ids_distinct.
(** the classes of a TCP client socket, a reliable UDP socket and a pool, below an application class with two timers *)
Example C59_ids_example :
  Forall (fun ls => Forall (fun l => NoDup (offsets l) /\ Forall (fun o => o < width l) (offsets l)) ls /\ fold_right (fun l n => width l + n) 0 ls < 65536)
    [[socket_layer; tcp_layer; client_layer; mk_layer [0; 1] 2]; [socket_layer; tcp_layer; mk_layer [0; 1] 2]; [socket_layer; reliable_layer; mk_layer [0; 1] 2]; [pool_layer; mk_layer [0; 1] 2]].
Proof.
  repeat match goal with
  | |- Forall _ (_ :: _) => apply Forall_cons | |- Forall _ [] => apply Forall_nil | |- _ /\ _ => split
  | |- NoDup _ => cbn [offsets socket_layer tcp_layer client_layer reliable_layer pool_layer]; repeat constructor; cbn [In]; intuition discriminate
  | |- Forall _ (offsets _) => cbn [offsets width socket_layer tcp_layer client_layer reliable_layer pool_layer]
  | |- _ < _ => vm_compute; reflexivity
  end.
Qed.
Example C59_ids_values : chain_ids timer_end [socket_layer; tcp_layer; client_layer; mk_layer [0; 1] 2] = [0; 1; 2; 3; 10; 15; 16; 20; 21].
Proof. reflexivity. Qed.
Example C59_ids_values_more : chain_ids timer_end [socket_layer; reliable_layer; mk_layer [0; 1] 2] = [0; 1; 2; 3; 10; 11; 15; 16] /\
  chain_ids timer_end [pool_layer; mk_layer [0; 1] 2] = [0; 1; 10; 11].
Proof. split; reflexivity. Qed.

Definition op_id (o : top) : option N := match o with OSet id _ | OUpdate id _ | OStart id | OStop id | OMark id => Some id | OStopAll _ => None end.
(** Operations on one timer leave the others alone. *)
Theorem C59_no_interference s o id id' : op_id o = Some id -> id' <> id ->
  find_timer id' (timers (fst (do_op s o))) = find_timer id' (timers s) /\ of_timer id' (snd (do_op s o)) = [].
Proof.
  assert (U : forall f l, (forall t, t_id (f t) = t_id t) -> id' <> id -> find_timer id' (upd id f l) = find_timer id' l).
  { intros f l F NE. rewrite find_upd by exact F. destruct (N.eqb_spec id id'); [congruence|reflexivity]. }
  assert (C : forall st iv, id' <> id -> find_timer id' (timers (create_or_update st id iv)) = find_timer id' (timers st)).
  { intros st iv NE. unfold create_or_update. destruct (find_timer id (timers st)) eqn:F; cbn [timers]; [apply U; auto|].
    rewrite find_app. destruct (find_timer id' (timers st)); [reflexivity|]. cbn [new_timer t_id]. destruct (N.eqb_spec id id'); [congruence|reflexivity]. }
  assert (S : forall st, id' <> id -> find_timer id' (timers (fst (start_in st id))) = find_timer id' (timers st) /\ of_timer id' (snd (start_in st id)) = []).
  { intros st NE. unfold start_in. destruct (find_timer id (timers st)); cbn [fst snd timers]; [|auto]. split; [apply U; auto|apply of_single_other; exact NE]. }
  intros O NE. destruct o as [i iv|i iv|i|i|but|i]; cbn [op_id] in O; inversion O; subst i; cbn [do_op].
  - destruct (S (create_or_update s id iv) NE) as (S1 & S2). split; [rewrite S1; apply C; exact NE|exact S2].
  - cbn [fst snd]. split; [apply C; exact NE|reflexivity].
  - apply S. exact NE.
  - cbn [fst snd timers]. split; [apply U; auto using stop_ti_id|apply of_single_other; exact NE].
  - cbn [fst snd timers]. split; [apply U; auto|apply of_single_other; exact NE].
Qed.
Print Assumptions C59_no_interference.
Example C59_no_interference_example : op_id (OStop 7) = Some 7 /\ 8 <> 7 /\ (exists t, find_timer 8 (timers (fst (do_ops no_timers [OSet 7 1; OSet 8 1]))) = Some t).
Proof. split; [reflexivity|]. split; [discriminate|]. eexists. vm_compute. reflexivity. Qed.

(** ** C65: with ST_ASIO_ALIGNED_TIMER the callback's duration does not shift the following expirations. *)
Theorem C65_aligned interval elapsed : 0 < interval -> exists d k,
  aligned_delay interval elapsed = Some d /\ d <= interval /\ elapsed + d = k * interval.
Proof.
  intros L. unfold aligned_delay. destruct (N.ltb_spec interval elapsed) as [L1|L1].
  - destruct (N.eqb_spec interval 0); [lia|]. exists (interval - elapsed mod interval), (elapsed / interval + 1).
    pose proof (N.div_mod elapsed interval n). pose proof (N.mod_lt elapsed interval n). split; [reflexivity|]. split; lia.
  - exists (interval - elapsed), 1. split; [reflexivity|]. split; lia.
Qed.
Print Assumptions C65_aligned.
Example C65_example : 0 < 100 /\ aligned_delay 100 30 = Some 70 /\ aligned_delay 100 250 = Some 50 /\ aligned_delay 100 100 = Some 0.
Proof. repeat split. Qed.
(** A timer with interval 0 divides by zero as soon as its callback takes a millisecond. *)
Theorem C65_zero_interval_refuted : exists elapsed, aligned_delay 0 elapsed = None.
Proof. exists 1. reflexivity. Qed.
Print Assumptions C65_zero_interval_refuted.
