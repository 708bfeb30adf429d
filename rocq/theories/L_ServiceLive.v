(** Calls of the pump return; free() is called once. *)
From Coq Require Import List Bool Arith Lia.
From Verif Require Import M_Service S_Service L_Service.
Import ListNotations.

(** ** progress *)
(** steps of the library that a stack can still cause; [n]: the number of registered services *)
Definition fcost (n : nat) (f : frame) : nat :=
  match f with
  | FInit _ | FUninit _ | FFinal _ | FFree _ | FThreads _ | FEnded | FDying _ => 1
  | FAll _ l => 1 + 2 * length l
  | FWait => 3 + 2 * n
  | FStop _ | FGone _ => 2
  | FClear l => 1 + 5 * length l
  end.
Definition cost (s : pump) : nat := list_sum (map (fcost (length (p_reg s))) (p_stack s)).

Lemma lib_cost : forall ctx s W a s' e, inv s W -> library a = true -> step ctx s a = Some (s', e) -> cost s' < cost s.
Proof.
  intros ctx s W a s' e I La D.
  assert (F' : p_fate s' = None). { eapply i_fate, step_inv; eauto. destruct a; [discriminate| | |]; exact Logic.I. }
  destruct I as [F N L O Dy Sh]. unfold step in D. rewrite F in D. unfold cost.
  remember (p_stack s) as K eqn:EK. symmetry in EK. clear Dy.
  destruct a as [c|b| |]; [discriminate| | |]; destruct Sh; try discriminate;
    try (match goal with l : list nat |- _ => destruct l as [|z l]; try discriminate end);
    unfold deref, i_start, i_stop, for_all, stop_and_free in D; pj;
    repeat match type of D with context [match ?z with _ => _ end] => destruct z end; try discriminate; injection D as <- <-; pj; try discriminate; rewrite ?EK; unfold list_sum; cbn [map fold_right fcost length]; lia.
Qed.
Lemma enabled : forall ctx s W, inv s W -> p_stack s = [] \/ exists a, library a = true /\ step ctx s a <> None.
Proof.
  intros ctx s W [F N L O Dy Sh]. unfold step. rewrite F.
  destruct Sh; auto; right;
    first [exists ATick; split; [reflexivity|]; solve [discriminate | destruct l; discriminate]
          |exists (ARet true); split; [reflexivity | discriminate] | exists AJoin; split; [reflexivity | discriminate]].
Qed.
Lemma library_tame : forall ctx k s, Forall (fun a => library a = true) k -> tame ctx s k.
Proof.
  intros ctx k. induction k as [|a k IH]; intros s F; cbn; [exact I|]. inversion F; subst. split; [destruct a; [discriminate| | |]; exact I|].
  destruct (step ctx s a) as [[? ?]|]; auto.
Qed.
Lemma bounded : forall ctx k s W r, inv s W -> Forall (fun a => library a = true) k -> run ctx s k = Some r -> length k <= cost s.
Proof.
  intros ctx k. induction k as [|a k IH]; intros s W r I F R; cbn [run length] in *; [lia|]. inversion F; subst.
  destruct (step ctx s a) as [[s1 e1]|] eqn:E; [|discriminate]. destruct (run ctx s1 k) as [r'|] eqn:E2; [|discriminate].
  assert (I1 : inv s1 (after W e1)) by (eapply step_inv; eauto; destruct a; [discriminate| | |]; exact Logic.I).
  assert (C := lib_cost _ _ _ _ _ _ I H1 E). specialize (IH _ _ _ I1 H2 E2). lia.
Qed.

(** ** free() without removing services *)
Definition nfree (f : frame) : bool := match f with FStop _ | FGone _ | FClear _ => true | _ => false end.
Lemma count_app : forall f a b, count f (a ++ b) = count f a + count f b.
Proof. intros f a b. induction a as [|x a IH]; cbn; [reflexivity | rewrite IH; lia]. Qed.
Definition alive1 (s : pump) (x : nat) : nat := match p_obj s x with Live => 1 | _ => 0 end.
Lemma step_frees : forall ctx s a s' e x, removes a = false -> existsb nfree (p_stack s) = false -> step ctx s a = Some (s', e) ->
  existsb nfree (p_stack s') = false /\ count (is_free x) e + alive1 s' x <= count (is_new x) e + alive1 s x.
Proof.
  intros ctx s a s' e x Ra Nf D. unfold step in D. destruct (p_fate s); [discriminate|].
  destruct a as [c|b| |].
  - destruct (user_turn (p_stack s)); [|discriminate]. destruct c; try discriminate; cbn [docall] in D; unfold do_service, end_service, for_all, i_start, i_stop in D; pj;
    repeat match type of D with context [match ?z with _ => _ end] => destruct z eqn:?; pj end; try discriminate; injection D as <- <-; pj; cbn [count is_free is_new existsb nfree orb]; (split; [assumption|]); unfold alive1; pj; unfold upd;
    eqs; rewrite ?Nat.eqb_refl; try rewrite (proj2 (Nat.eqb_neq _ _)) by congruence; try match goal with H : p_obj _ _ = _ |- _ => rewrite H end; lia.
  - destruct (p_stack s) as [|f k] eqn:Ek; [discriminate|]. cbn in Nf. apply orb_false_iff in Nf. destruct Nf as [Nf1 Nf].
    unfold deref in D. repeat match type of D with context [match ?z with _ => _ end] => destruct z eqn:?; pj end; try discriminate; injection D as <- <-; pj; subst; rewrite ?Ek; cbn [existsb nfree orb]; (split; [auto|]); apply Nat.le_refl.
  - destruct (p_stack s) as [|f k] eqn:Ek; [discriminate|]. cbn in Nf. apply orb_false_iff in Nf. destruct Nf as [Nf1 Nf].
    unfold deref, i_start, i_stop in D. repeat match type of D with context [match ?z with _ => _ end] => destruct z eqn:?; pj end; try discriminate; injection D as <- <-; pj; subst; rewrite ?Ek; try discriminate; cbn [existsb nfree orb]; (split; [auto|]); try apply Nat.le_refl.
    all: unfold alive1; pj; unfold upd; cbn; eqs; lia.
  - destruct (p_stack s) as [|f k] eqn:Ek; [discriminate|]. cbn in Nf. apply orb_false_iff in Nf. destruct Nf as [Nf1 Nf].
    unfold for_all in D. repeat match type of D with context [match ?z with _ => _ end] => destruct z eqn:?; pj end; try discriminate; injection D as <- <-; pj; subst; rewrite ?Ek; cbn [existsb nfree orb]; (split; [auto|]); apply Nat.le_refl.
Qed.
Lemma frees_gen : forall ctx l s s' e x, Forall (fun a => removes a = false) l -> existsb nfree (p_stack s) = false -> run ctx s l = Some (s', e) ->
  count (is_free x) e + alive1 s' x <= count (is_new x) e + alive1 s x.
Proof.
  intros ctx l. induction l as [|a l IH]; intros s s' e x F Nf R; cbn [run] in R.
  - injection R as <- <-. apply Nat.le_refl.
  - inversion F; subst. destruct (step ctx s a) as [[s1 e1]|] eqn:E; [|discriminate]. destruct (run ctx s1 l) as [[s2 e2]|] eqn:E2; [|discriminate]. injection R as <- <-.
    destruct (step_frees _ _ _ _ _ x H1 Nf E) as [Nf1 A]. specialize (IH _ _ _ x H2 Nf1 E2). rewrite !count_app. lia.
Qed.
Lemma frees : forall ctx l s e x, Forall (fun a => removes a = false) l -> run ctx pump0 l = Some (s, e) -> count (is_free x) e + alive1 s x <= count (is_new x) e.
Proof. intros ctx l s e x F R. assert (H := frees_gen ctx l pump0 _ _ x F eq_refl R). cbn in H. lia. Qed.
