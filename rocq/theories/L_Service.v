(** Invariant of a pump that is used by a tame program. *)
From Coq Require Import List Bool Arith Lia Permutation.
From Verif Require Import M_Service S_Service.
Import ListNotations.

Definition ph (b : bool) : option phase := Some (if b then On else Off).
(** the phases agree with the flags, except for service [e] *)
Definition agree (s : pump) (W : nat -> obs) (e : option nat) : Prop := forall x, e <> Some x -> o_phase (W x) = ph (p_on s x).
Definition fin0 (s : pump) (W : nat -> obs) : Prop := forall x, In x (p_reg s) -> o_finals (W x) = 0.
Definition idle (s : pump) (W : nat -> obs) : Prop :=
  p_lock s = false /\ fin0 s W /\ (p_started s = false -> forall x, In x (p_reg s) -> p_on s x = false /\ o_inits (W x) = 0).
Definition done (s : pump) (W : nat -> obs) (x : nat) : Prop := o_inits (W x) = 1 /\ (p_on s x = true \/ o_last (W x) = Some false).
Definition alive (s : pump) (l : list nat) : Prop := forall x, In x l -> p_obj s x = Live.

Inductive shape (s : pump) (W : nat -> obs) : list frame -> Prop :=
| S_top : idle s W -> agree s W None -> shape s W []
| S_init : forall x, idle s W -> p_started s = true -> p_obj s x = Live -> p_on s x = false -> agree s W (Some x) -> o_phase (W x) = Some Starting -> shape s W [FInit x]
| S_uninit : forall x, idle s W -> p_obj s x = Live -> p_on s x = true -> agree s W (Some x) -> o_phase (W x) = Some Stopping -> shape s W [FUninit x]
| S_start : forall l n, p_lock s = true -> p_started s = true -> fin0 s W -> NoDup l -> incl l (p_reg s) -> agree s W None ->
    (forall x, In x l -> p_on s x = false /\ o_inits (W x) = 0) -> (forall x, In x (p_reg s) -> ~ In x l -> done s W x) -> shape s W [FAll KStart l; FThreads n]
| S_start_in : forall y l n, p_lock s = true -> p_started s = true -> fin0 s W -> NoDup (y :: l) -> incl (y :: l) (p_reg s) -> agree s W (Some y) ->
    p_on s y = false -> o_phase (W y) = Some Starting -> o_inits (W y) = 1 ->
    (forall x, In x l -> p_on s x = false /\ o_inits (W x) = 0) -> (forall x, In x (p_reg s) -> ~ In x (y :: l) -> done s W x) -> shape s W [FInit y; FAll KStart l; FThreads n]
| S_threads : forall n, p_lock s = false -> p_started s = true -> fin0 s W -> agree s W None -> (forall x, In x (p_reg s) -> done s W x) -> shape s W [FThreads n]
| S_stop : forall l tl, (tl = [] \/ tl = [FWait]) -> p_lock s = true -> p_started s = true -> fin0 s W -> incl l (p_reg s) -> agree s W None ->
    (forall x, In x (p_reg s) -> ~ In x l -> p_on s x = false) -> shape s W (FAll KStop l :: tl)
| S_stop_in : forall y l tl, (tl = [] \/ tl = [FWait]) -> p_lock s = true -> p_started s = true -> fin0 s W -> incl (y :: l) (p_reg s) -> agree s W (Some y) ->
    p_on s y = true -> o_phase (W y) = Some Stopping ->
    (forall x, In x (p_reg s) -> ~ In x (y :: l) -> p_on s x = false) -> shape s W (FUninit y :: FAll KStop l :: tl)
| S_wait : p_lock s = false -> p_started s = true -> fin0 s W -> agree s W None -> (forall x, In x (p_reg s) -> p_on s x = false) -> shape s W [FWait]
| S_final : forall l, p_lock s = true -> p_started s = true -> NoDup l -> incl l (p_reg s) -> agree s W None -> (forall x, In x (p_reg s) -> p_on s x = false) ->
    (forall x, In x l -> o_finals (W x) = 0) -> (forall x, In x (p_reg s) -> ~ In x l -> o_finals (W x) = 1) -> shape s W [FAll KFinal l; FEnded]
| S_final_in : forall y l, p_lock s = true -> p_started s = true -> NoDup l -> incl l (p_reg s) -> agree s W None -> (forall x, In x (p_reg s) -> p_on s x = false) ->
    (forall x, In x l -> o_finals (W x) = 0) -> (forall x, In x (p_reg s) -> ~ In x l -> o_finals (W x) = 1) -> shape s W [FFinal y; FAll KFinal l; FEnded]
| S_ended : p_lock s = false -> p_started s = true -> agree s W None -> (forall x, In x (p_reg s) -> p_on s x = false) ->
    (forall x, In x (p_reg s) -> o_finals (W x) = 1) -> shape s W [FEnded]
| S_rstop : forall x tl, (tl = [] \/ exists l, tl = [FClear l] /\ alive s l) -> p_obj s x = Live -> idle s W -> agree s W None -> shape s W (FStop x :: FGone x :: tl)
| S_rstop_in : forall x tl, (tl = [] \/ exists l, tl = [FClear l] /\ alive s l) -> p_obj s x = Live -> idle s W -> agree s W (Some x) -> p_on s x = true -> o_phase (W x) = Some Stopping ->
    shape s W (FUninit x :: FGone x :: tl)
| S_gone : forall x tl, (tl = [] \/ exists l, tl = [FClear l] /\ alive s l) -> idle s W -> agree s W None -> shape s W (FGone x :: tl)
| S_free : forall x tl, (tl = [] \/ exists l, tl = [FClear l] /\ alive s l) -> idle s W -> agree s W None -> shape s W (FFree x :: tl)
| S_clear : forall l, alive s l -> idle s W -> agree s W None -> shape s W [FClear l]
| S_dfree : forall x, ~ In x (p_reg s) -> p_obj s x = Dying -> p_on s x = false -> idle s W -> agree s W None -> shape s W [FFree x; FDying x]
| S_dying : forall x, ~ In x (p_reg s) -> p_obj s x = Dying -> p_on s x = false -> idle s W -> agree s W None -> shape s W [FDying x].

Record inv (s : pump) (W : nat -> obs) : Prop := mk_inv {
  i_fate : p_fate s = None;
  i_nodup : NoDup (p_reg s);
  i_live : alive s (p_reg s);
  i_off : forall x, p_obj s x = Gone -> p_on s x = false;
  i_dying : forall x, p_obj s x = Dying -> In (FDying x) (p_stack s);
  i_shape : shape s W (p_stack s) }.

Lemma inv0 : inv pump0 (fun x => watch x []).
Proof.
  constructor; cbn; try constructor; try easy.
Qed.

Ltac pj := cbn [p_reg p_obj p_id p_on p_started p_first p_lock p_stack p_fate with_reg with_obj with_id with_on with_started with_lock with_stack doomed push
  o_phase o_inits o_last o_finals see fold_left obs0] in *.
(** the observations after some events *)
Definition after (W : nat -> obs) (e : list ev) : nat -> obs := fun x => fold_left (see x) e (W x).

Lemma upd_same : forall A (f : nat -> A) x v, upd f x v x = v.
Proof. intros. unfold upd. now rewrite Nat.eqb_refl. Qed.
Lemma upd_other : forall A (f : nat -> A) x v y, y <> x -> upd f x v y = f y.
Proof. intros. unfold upd. destruct (Nat.eqb_spec y x); congruence. Qed.

(** case analysis on all comparisons of service numbers *)
Ltac eqs := repeat match goal with
  | |- context [?a =? ?b] => destruct (Nat.eqb_spec a b); subst
  | H : context [?a =? ?b] |- _ => destruct (Nat.eqb_spec a b); subst
  end.
Ltac un := unfold idle, agree, fin0, done, after, upd, alive, incl, ph in *.
Ltac sp := repeat match goal with H : _ /\ _ |- _ => destruct H end.
Ltac nd := repeat match goal with H : NoDup (_ :: _) |- _ => inversion H; clear H; subst end.

Ltac dy := try solve [match goal with Dy : forall x : nat, p_obj _ x = Dying -> _ |- forall x : nat, _ = Dying -> _ => let H := fresh in intros ? H; apply Dy in H; cbn [In]; auto end].
Definition tame1 (s : pump) (a : act) : Prop :=
  match a with ACall c => p_stack s = [] /\ match c with CDelete x => p_on s x = false | _ => True end | _ => True end.

Ltac fin1 := repeat match goal with |- _ /\ _ => split | |- forall _, _ => intro end; eqs; pj; sp.
Ltac use := match goal with
  | A : forall x : nat, _ -> o_phase (?W x) = _ , O : p_on ?s ?y = ?b |- context [o_phase (?W ?y)] => let E := fresh in assert (E := A y ltac:(congruence)); rewrite O in E; rewrite E; clear E; reflexivity
  end.
Ltac fin := pj; un; pj; sp; fin1; try solve [congruence | auto | use | eauto | tauto | firstorder (congruence || auto)].

Lemma i_start_top : forall s W x, inv s W -> p_stack s = [] -> p_started s = true -> p_obj s x = Live ->
  inv (fst (i_start s x)) (after W (snd (i_start s x))).
Proof.
  intros s W x [F N L O Dy Sh] K St Lx. rewrite K in Sh. inversion Sh as [ID AG| | | | | | | | | | | | | | | | | |]; subst.
  unfold i_start. destruct (p_on s x) eqn:Ox; cbn [fst snd].
  - constructor; try assumption. rewrite K. exact Sh.
  - constructor; pj; try assumption; dy. rewrite K. apply S_init; pj; try assumption; fin.
Qed.
Lemma i_stop_top : forall s W x, inv s W -> p_stack s = [] -> p_obj s x = Live -> inv (fst (i_stop s x)) (after W (snd (i_stop s x))).
Proof.
  intros s W x [F N L O Dy Sh] K Lx. rewrite K in Sh. inversion Sh as [ID AG| | | | | | | | | | | | | | | | | |]; subst.
  unfold i_stop. destruct (p_on s x) eqn:Ox; cbn [fst snd].
  - constructor; pj; try assumption; dy. rewrite K. apply S_uninit; pj; try assumption; fin.
  - constructor; try assumption. rewrite K. exact Sh.
Qed.
Lemma do_service_top : forall ctx s W n, inv s W -> p_stack s = [] -> p_started s = false -> inv (fst (do_service ctx s n)) (after W (snd (do_service ctx s n))).
Proof.
  intros ctx s W n [F N L O Dy Sh] K St. assert (Sh' := Sh). rewrite K in Sh. inversion Sh as [ID AG| | | | | | | | | | | | | | | | | |]; subst.
  destruct ID as (Lk & Fi & Of). unfold do_service. destruct ((n =? 0) || (n <? ctx)); cbn [fst snd].
  - constructor; assumption.
  - unfold for_all. pj. rewrite Lk. constructor; pj; try assumption; dy. rewrite K. apply S_start; pj; try assumption; fin.
Qed.
Lemma nodup_remove : forall l x, NoDup l -> NoDup (remove Nat.eq_dec x l).
Proof. intros l x H. induction H as [|y l N H IH]; cbn; [constructor|]. destruct (Nat.eq_dec x y); [exact IH|]. constructor; [|exact IH]. intro C. apply in_remove in C. tauto. Qed.
Lemma nodup_snoc : forall (l : list nat) x, NoDup l -> ~ In x l -> NoDup (l ++ [x]).
Proof. intros l x H N. apply (Permutation_NoDup (Permutation_cons_append l x)). now constructor. Qed.
Lemma find_id_in : forall s i x, find_id s i = Some x -> In x (p_reg s) /\ p_id s x = i.
Proof. intros s i x H. apply find_some in H. destruct H as [A B]. apply Nat.eqb_eq in B. auto. Qed.

Lemma removed : forall s W x, inv s W -> p_stack s = [] -> p_obj s x = Live -> inv (stop_and_free (with_reg s (remove Nat.eq_dec x (p_reg s))) x) W.
Proof.
  intros s W x [F N L O Dy Sh] K Lx. rewrite K in Sh. inversion Sh as [ID AG| | | | | | | | | | | | | | | | | |]; subst.
  assert (R : forall y, In y (remove Nat.eq_dec x (p_reg s)) -> In y (p_reg s)) by (intros y H; apply in_remove in H; tauto).
  constructor; unfold stop_and_free; pj; try assumption; dy.
  - now apply nodup_remove.
  - intros y H. apply L, R, H.
  - rewrite K. apply S_rstop; pj; try assumption; [left; reflexivity|]. destruct ID as (A & B & C). repeat split; pj; try assumption; intros; fin.
Qed.

Lemma call_inv : forall ctx s W c s' e, inv s W -> tame1 s (ACall c) -> docall ctx s c = Some (s', e) -> inv s' (after W e).
Proof.
  intros ctx s W c s' e I [K T] D. assert (I' := I). destruct I' as [F N L O Dy Sh]. assert (Sh' := Sh). rewrite K in Sh. inversion Sh as [ID AG| | | | | | | | | | | | | | | | | |]; subst.
  assert (ID' := ID). destruct ID' as (Lk & Fi & Of).
  destruct c; cbn [docall] in D; rewrite ?Lk in D.
  - destruct (p_obj s x) eqn:Ox; try discriminate. injection D as <- <-.
    assert (Nx : ~ In x (p_reg s)) by (intro C; apply L in C; congruence).
    constructor; pj; try assumption; dy.
    + now apply nodup_snoc.
    + intros y H. apply in_app_iff in H. un; pj; un. destruct (Nat.eqb_spec y x); [reflexivity|]. destruct H as [H|[H|[]]]; [auto | congruence].
    + un; pj; un. intros y. destruct (Nat.eqb_spec y x); [reflexivity | apply O].
    + un; pj; un. intros y. destruct (Nat.eqb_spec y x); [discriminate | apply Dy].
    + rewrite K. apply S_top; pj; un; pj.
      * assert (R : forall y, In y (p_reg s ++ [x]) -> y <> x -> In y (p_reg s)) by (intros y H ?; apply in_app_iff in H; destruct H as [H|[H|[]]]; congruence).
        split; [exact Lk|]. split; [intros y H; eqs; [reflexivity | apply Fi, R; congruence]|]. intros St y H. un. eqs; try congruence; [split; reflexivity|]. apply Of; [exact St | apply R; congruence].
      * intros y Hy. un. eqs; pj; try reflexivity; try congruence. now apply AG.
  - destruct (p_obj s x) eqn:Ox; try discriminate.
    + rewrite T in D. injection D as <- <-. assert (R : forall y, In y (remove Nat.eq_dec x (p_reg s)) -> In y (p_reg s) /\ y <> x) by (intros y H; apply in_remove in H; tauto).
      constructor; pj; try assumption; dy.
      * now apply nodup_remove.
      * intros y H. destruct (R y H). un; pj; un. destruct (Nat.eqb_spec y x); [congruence | auto].
      * un; pj; un. intros y. destruct (Nat.eqb_spec y x); [congruence | apply O].
      * un; pj; un. intros y. destruct (Nat.eqb_spec y x); [subst; cbn [In]; auto | intro H; apply Dy in H; cbn [In]; auto].
      * rewrite K. apply S_dfree; pj; try assumption.
        -- intro C. apply R in C. tauto.
        -- apply upd_same.
        -- destruct ID as (A & B & C). repeat split; pj; un; pj; try assumption; intros; fin.
    + exfalso. apply Dy in Ox. rewrite K in Ox. destruct Ox.
  - destruct (is_live s x) eqn:Lx; cbn [negb] in D; [|discriminate]. injection D as <- <-. apply removed; auto. unfold is_live in Lx. destruct (p_obj s x); congruence.
  - destruct (find_id s id) as [x|] eqn:E; injection D as <- <-; [|exact I]. apply removed; auto. apply L. eapply find_id_in; eauto.
  - injection D as <- <-. constructor; pj; try assumption; dy; try constructor; try easy. rewrite K. apply S_clear; pj; try assumption. fin.
  - injection D as <- <-. exact I.
  - destruct (p_started s) eqn:St; [injection D as <- <-; exact I|]. destruct (do_service ctx s n) eqn:E. injection D as <- <-. generalize (do_service_top ctx s W n I K St). now rewrite E.
  - destruct (p_started s) eqn:St; injection D as <- <-; [|exact I]. unfold end_service, for_all. pj. rewrite St, Lk. constructor; pj; try assumption; dy. rewrite K. apply S_stop; pj; auto; fin.
  - injection D as <- <-. unfold end_service, for_all. destruct (p_started s) eqn:St; [|exact I]. rewrite Lk. constructor; pj; try assumption; dy. rewrite K. apply S_stop; pj; auto; fin.
  - destruct (is_live s x) eqn:Lx; cbn [negb] in D; [|discriminate]. assert (Lv : p_obj s x = Live) by (unfold is_live in Lx; destruct (p_obj s x); congruence).
    destruct (p_started s) eqn:St.
    + destruct (i_start s x) eqn:E. injection D as <- <-. generalize (i_start_top s W x I K St Lv). now rewrite E.
    + destruct (do_service ctx s n) eqn:E. injection D as <- <-. generalize (do_service_top ctx s W n I K St). now rewrite E.
  - destruct (is_live s x) eqn:Lx; cbn [negb] in D; [|discriminate]. assert (Lv : p_obj s x = Live) by (unfold is_live in Lx; destruct (p_obj s x); congruence).
    destruct (i_stop s x) eqn:E. injection D as <- <-. generalize (i_stop_top s W x I K Lv). now rewrite E.
Qed.

Lemma inv_keep : forall s W s' W', inv s W -> p_fate s' = None -> p_reg s' = p_reg s -> p_obj s' = p_obj s ->
  (forall x, p_obj s x = Gone -> p_on s x = false -> p_on s' x = false) ->
  (forall x, In (FDying x) (p_stack s) -> In (FDying x) (p_stack s')) -> shape s' W' (p_stack s') -> inv s' W'.
Proof.
  intros s W s' W' [F N L O Dy Sh] A B C D E G. constructor; auto.
  - now rewrite B.
  - rewrite B. intros x H. rewrite C. auto.
  - intros x H. rewrite C in H. auto.
  - intros x H. rewrite C in H. auto.
Qed.
Ltac keep := match goal with I : inv ?s ?W, EK : p_stack ?s = _ |- _ =>
  eapply (inv_keep s W _ _ I); [pj; assumption | reflexivity | reflexivity | pj; unfold upd; intros; eqs; congruence | rewrite EK; pj; cbn [In]; intros; intuition congruence | pj] end.
Ltac rwp := match goal with H : o_phase (?W ?x) = _ |- context [o_phase (?W ?x)] => rewrite H; reflexivity end.
Ltac crush := un; pj; un; sp; nd; fin1; try solve [congruence | auto | rwp | use | firstorder (congruence || auto)].
Lemma notin_cons : forall (x y : nat) l, x <> y -> ~ In x l -> ~ In x (y :: l).
Proof. intros x y l A B [C|C]; congruence. Qed.

Lemma ret_inv : forall ctx s W b s' e, inv s W -> step ctx s (ARet b) = Some (s', e) -> inv s' (after W e).
Proof.
  intros ctx s W b s' e I D. assert (I' := I). destruct I' as [F N L O Dy Sh]. unfold step in D. rewrite F in D.
  remember (p_stack s) as K eqn:EK. symmetry in EK. clear Dy. destruct Sh; try discriminate; unfold deref in D.
  - rewrite H1 in D. injection D as <- <-. keep. apply S_top; crush.
  - rewrite H0 in D. injection D as <- <-. keep. apply S_top; crush.
  - assert (Ly : p_obj s y = Live) by (apply L, H3; left; reflexivity). rewrite Ly in D. injection D as <- <-. keep. apply S_start; crush. destruct b; auto.
  - assert (Ly : p_obj s y = Live) by (apply L, H3; left; reflexivity). rewrite Ly in D. injection D as <- <-. keep. apply S_stop; crush.
  - injection D as <- <-. keep. apply S_final; crush.
  - rewrite H0 in D. injection D as <- <-. keep. apply S_gone; crush.
  - injection D as <- <-. keep. destruct H as [ -> | (l & -> & A)]; [apply S_top | apply S_clear]; crush.
  - injection D as <- <-. keep. apply S_dying; crush.
Qed.

Lemma tick_inv : forall ctx s W s' e, inv s W -> step ctx s ATick = Some (s', e) -> inv s' (after W e).
Proof.
  intros ctx s W s' e I D. assert (I' := I). destruct I' as [F N L O Dy Sh]. unfold step in D. rewrite F in D.
  remember (p_stack s) as K eqn:EK. symmetry in EK. clear Dy. destruct Sh; try discriminate; unfold deref, i_start, i_stop in D; pj.
  - destruct l as [|y l]; [injection D as <- <-; keep; apply S_threads; crush|].
    assert (Ly : p_obj s y = Live) by (apply L, H3; left; reflexivity). destruct (H5 y ltac:(left; reflexivity)) as [Oy Iy]. rewrite Ly, Oy in D. injection D as <- <-. keep. apply S_start_in; try assumption; crush.
  - injection D as <- <-. keep. apply S_top; crush.
  - destruct l as [|y l].
    + injection D as <- <-. keep. destruct H as [ -> | -> ]; [apply S_top | apply S_wait]; crush.
    + assert (Ly : p_obj s y = Live) by (apply L, H3; left; reflexivity). rewrite Ly in D. destruct (p_on s y) eqn:Oy; injection D as <- <-; keep; [apply S_stop_in | apply S_stop]; crush.
      destruct (Nat.eq_dec x y) as [ -> |]; [exact Oy|]. apply H5; [assumption|]. now apply notin_cons.
  - destruct l as [|y l]; [injection D as <- <-; keep; apply S_ended; crush|].
    assert (Ly : p_obj s y = Live) by (apply L, H2; left; reflexivity). rewrite Ly in D. injection D as <- <-. keep. apply S_final_in; crush.
  - injection D as <- <-. keep. apply S_top; crush.
  - rewrite H0 in D. destruct (p_on s x) eqn:Ox; injection D as <- <-; keep; [apply S_rstop_in | apply S_gone]; crush.
  - injection D as <- <-. keep. apply S_free; crush.
  - destruct l as [|y l]; injection D as <- <-; unfold stop_and_free; keep; [apply S_top; crush|]. apply S_rstop; crush.
  - injection D as <- <-. constructor; pj; try assumption.
    + un; pj; un. intros y Hy. eqs; [contradiction | auto].
    + un; intros y Hy. eqs; auto.
    + un; intros y Hy. eqs; [congruence|]. apply (i_dying _ _ I) in Hy. rewrite EK in Hy. cbn in Hy. intuition congruence.
    + apply S_top; crush.
Qed.
Lemma join_inv : forall ctx s W s' e, inv s W -> step ctx s AJoin = Some (s', e) -> inv s' (after W e).
Proof.
  intros ctx s W s' e I D. assert (I' := I). destruct I' as [F N L O Dy Sh]. unfold step in D. rewrite F in D.
  remember (p_stack s) as K eqn:EK. symmetry in EK. clear Dy. destruct Sh; try discriminate. unfold for_all in D. pj. rewrite H in D. injection D as <- <-. keep. apply S_final; crush.
Qed.
Lemma step_inv : forall ctx s W a s' e, inv s W -> tame1 s a -> step ctx s a = Some (s', e) -> inv s' (after W e).
Proof.
  intros ctx s W a s' e I T D. destruct a.
  - unfold step in D. rewrite (i_fate _ _ I) in D. destruct (user_turn (p_stack s)); [|discriminate]. eapply call_inv; eauto.
  - eapply ret_inv; eauto.
  - eapply tick_inv; eauto.
  - eapply join_inv; eauto.
Qed.

Lemma run_inv_gen : forall ctx l s W s' e, inv s W -> tame ctx s l -> run ctx s l = Some (s', e) -> exists W', inv s' W' /\ forall x, W' x = after W e x.
Proof.
  intros ctx l. induction l as [|a l IH]; intros s W s' e I T R; cbn [run] in R.
  - injection R as <- <-. exists W. split; [exact I | reflexivity].
  - destruct T as [T1 T2]. destruct (step ctx s a) as [[s1 e1]|] eqn:E; [|discriminate]. destruct (run ctx s1 l) as [[s2 e2]|] eqn:E2; [|discriminate]. injection R as <- <-.
    assert (I1 := step_inv _ _ _ _ _ _ I T1 E). destruct (IH _ _ _ _ I1 T2 E2) as (W' & I2 & Q). exists W'. split; [exact I2|].
    intro x. rewrite Q. unfold after. now rewrite fold_left_app.
Qed.
Lemma run_inv : forall ctx l s e, tame ctx pump0 l -> run ctx pump0 l = Some (s, e) -> exists W, inv s W /\ forall x, W x = watch x e.
Proof. intros ctx l s e T R. destruct (run_inv_gen _ _ _ _ _ _ inv0 T R) as (W & I & Q). exists W. split; [exact I | exact Q]. Qed.
