From Coq Require Import List Bool Arith Lia.
From Verif Require Import M_Keep S_Keep.
Import ListNotations.

(** ** C161: a transfer that fails leaves the files as they were *)
Definition C161_statement : Prop := forall c (s : @kst nat) a l s' t, job s = KIdle -> user a = true -> alone l -> krun c s (a :: l) = Some (s', t) -> t = [EFailed] ->
  same (here s) (here s') /\ same (there s) (there s').
Definition all : kcfg := mk_kc (fun _ => true) (fun _ => true) (fun _ => true) (fun _ => true).
(** file 1 exists here only, file 2 there only *)
Definition s12 : @kst nat := mk_k (write (fun _ => None) 1 [7; 8]) (write (fun _ => None) 2 [9]) KIdle.
(** getting a file the server does not have empties the one that is here *)
Theorem C161_get_refuted : exists s' t, krun all s12 [UGet 1; SAnswer] = Some (s', t) /\ t = [EFailed] /\ here s12 1 = Some [7; 8] /\ here s' 1 = Some [].
Proof. do 2 eexists. split; [vm_compute; reflexivity|]. repeat split. Qed.
Print Assumptions C161_get_refuted.
(** putting a file one does not have empties the one of the server *)
Theorem C161_put_refuted : exists s' t, krun all s12 [UPut 2; SAnswer] = Some (s', t) /\ t = [EFailed] /\ there s12 2 = Some [9] /\ there s' 2 = Some [].
Proof. do 2 eexists. split; [vm_compute; reflexivity|]. repeat split. Qed.
Print Assumptions C161_put_refuted.
Theorem C161_statement_refuted : ~ C161_statement.
Proof.
  intro H. destruct C161_get_refuted as (s' & t & R & E & O & N). destruct (H all s12 (UGet 1) [SAnswer] s' t eq_refl eq_refl) as (X & _); [intros a [<-|[]]; reflexivity|exact R|exact E|]. specialize (X 1). rewrite O, N in X. discriminate X.
Qed.
Print Assumptions C161_statement_refuted.

Section P.
Context {B : Type}.
Lemma write_same (d : @disk B) f x : write d f x f = Some x.
Proof. unfold write. rewrite Nat.eqb_refl. reflexivity. Qed.
Lemma write_other (d : @disk B) f x g : g <> f -> write d f x g = d g.
Proof. intros N. unfold write. apply Nat.eqb_neq in N. rewrite N. reflexivity. Qed.
(** s0: the state in which the user named a file *)
Definition G (c : kcfg) (s0 : @kst B) (f : nat) (s : kst) (t : list kev) : Prop :=
  same (there s0) (there s) /\ only f (here s0) (here s) /\
  match job s with
  | KIdle => (t = [EOk] /\ here s f = there s0 f) \/ (t = [EFailed] /\ rest_of (here s0 f) (here s f) (there s0 f) /\ (write_here c f = false -> here s f = here s0 f))
  | KGet g => g = f /\ t = [] /\ here s f = Some [] /\ write_here c f = true
  | KGetting g r => g = f /\ t = [] /\ write_here c f = true /\ exists x, here s f = Some x /\ there s0 f = Some (x ++ r)
  | _ => False
  end.
Definition P (c : kcfg) (s0 : @kst B) (f : nat) (s : kst) (t : list kev) : Prop :=
  same (here s0) (here s) /\ only f (there s0) (there s) /\
  match job s with
  | KIdle => (t = [EOk] /\ there s f = here s0 f) \/ (t = [EFailed] /\ rest_of (there s0 f) (there s f) (here s0 f) /\ (write_there c f = false -> there s f = there s0 f))
  | KPut g => g = f /\ t = [] /\ there s f = there s0 f
  | KPutting g r => g = f /\ t = [] /\ write_there c f = true /\ exists x, there s f = Some x /\ here s0 f = Some (x ++ r)
  | _ => False
  end.
Lemma G_step c s0 f s t a s' e : G c s0 f s t -> user a = false -> kstep c s a = Some (s', e) -> G c s0 f s' (t ++ e).
Proof.
  intros (T & O & J) U D. destruct s as [h th j]. cbn in *. destruct a as [g|g| |n|], j as [|g'|g' r|g'|g' r]; try discriminate U; try contradiction; try discriminate D; cbn in D.
  - destruct J as (-> & -> & J & W). destruct (read_there c f) eqn:RT; [destruct (th f) as [[|b d]|] eqn:E|]; injection D as <- <-; (split; [exact T|]; split; [exact O|]); cbn.
    + left. split; [reflexivity|]. rewrite J, <- (T f), E. reflexivity.
    + do 3 (split; [first [reflexivity|exact W]|]). exists []. split; [exact J|]. rewrite <- (T f), E. reflexivity.
    + right. split; [reflexivity|]. split; [|congruence]. right. exists []. split; [exact J|]. rewrite <- (T f), E. reflexivity.
    + right. split; [reflexivity|]. split; [|congruence]. right. exists []. split; [exact J|]. destruct (there s0 f); [eexists; reflexivity|reflexivity].
  - destruct J as (-> & -> & W & x & J & S). match type of D with (if ?x then _ else _) = _ => destruct x; [|discriminate D] end. rewrite J in D.
    assert (O2 : only f (here s0) (write h f (x ++ firstn n r))) by (intros g N; rewrite write_other by exact N; exact (O g N)).
    destruct (n =? length r) eqn:E; injection D as <- <-; (split; [exact T|]; split; [exact O2|]); cbn.
    + left. split; [reflexivity|]. apply Nat.eqb_eq in E. subst n. rewrite write_same, firstn_all, S. reflexivity.
    + do 3 (split; [first [reflexivity|exact W]|]). exists (x ++ firstn n r). rewrite write_same, <- app_assoc, firstn_skipn. split; [reflexivity|exact S].
  - destruct J as (-> & -> & J & W). injection D as <- <-. split; [exact T|]. split; [exact O|]. cbn. right. split; [reflexivity|]. split; [|congruence]. right. exists []. split; [exact J|]. destruct (there s0 f); [eexists; reflexivity|reflexivity].
  - destruct J as (-> & -> & W & x & J & S). injection D as <- <-. split; [exact T|]. split; [exact O|]. cbn. right. split; [reflexivity|]. split; [|congruence]. right. exists x. split; [exact J|]. rewrite S. exists r. reflexivity.
Qed.
Lemma P_step c s0 f s t a s' e : P c s0 f s t -> user a = false -> kstep c s a = Some (s', e) -> P c s0 f s' (t ++ e).
Proof.
  intros (T & O & J) U D. destruct s as [h th j]. cbn in *. destruct a as [g|g| |n|], j as [|g'|g' r|g'|g' r]; try discriminate U; try contradiction; try discriminate D; cbn in D.
  - destruct J as (-> & -> & J). assert (O2 : only f (there s0) (write th f [])) by (intros g N; rewrite write_other by exact N; exact (O g N)).
    destruct (write_there c f) eqn:W; [destruct (read_here c f) eqn:RT; [destruct (h f) as [[|b d]|] eqn:E|]|]; injection D as <- <-; (split; [exact T|]; split; [first [exact O2|exact O]|]); cbn; rewrite ?write_same.
    + left. split; [reflexivity|]. rewrite <- (T f), E. reflexivity.
    + do 3 (split; [first [reflexivity|exact W]|]). exists []. split; [reflexivity|]. rewrite <- (T f), E. reflexivity.
    + right. split; [reflexivity|]. split; [|congruence]. right. exists []. split; [reflexivity|]. rewrite <- (T f), E. reflexivity.
    + right. split; [reflexivity|]. split; [|congruence]. right. exists []. split; [reflexivity|]. destruct (here s0 f); [eexists; reflexivity|reflexivity].
    + right. split; [reflexivity|]. split; [left; exact J|intros _; exact J].
  - destruct J as (-> & -> & W & x & J & S). match type of D with (if ?x then _ else _) = _ => destruct x; [|discriminate D] end. rewrite J in D.
    assert (O2 : only f (there s0) (write th f (x ++ firstn n r))) by (intros g N; rewrite write_other by exact N; exact (O g N)).
    destruct (n =? length r) eqn:E; injection D as <- <-; (split; [exact T|]; split; [exact O2|]); cbn.
    + left. split; [reflexivity|]. apply Nat.eqb_eq in E. subst n. rewrite write_same, firstn_all, S. reflexivity.
    + do 3 (split; [first [reflexivity|exact W]|]). exists (x ++ firstn n r). rewrite write_same, <- app_assoc, firstn_skipn. split; [reflexivity|exact S].
  - destruct J as (-> & -> & J). injection D as <- <-. split; [exact T|]. split; [exact O|]. cbn. right. split; [reflexivity|]. split; [left; exact J|intros _; exact J].
  - destruct J as (-> & -> & W & x & J & S). injection D as <- <-. split; [exact T|]. split; [exact O|]. cbn. right. split; [reflexivity|]. split; [|congruence]. right. exists x. split; [exact J|]. rewrite S. exists r. reflexivity.
Qed.
Lemma over (I : kst -> list kev -> Prop) c : (forall s t a s' e, I s t -> user a = false -> kstep c s a = Some (s', e) -> I s' (t ++ e)) ->
  forall l (s : @kst B) t s' e, I s t -> alone l -> krun c s l = Some (s', e) -> I s' (t ++ e).
Proof.
  intros ST. induction l as [|a l IH]; intros s t s' e J A R; cbn [krun] in R; [injection R as <- <-; rewrite app_nil_r; exact J|].
  destruct (kstep c s a) as [[s1 e1]|] eqn:D; [|discriminate]. destruct (krun c s1 l) as [[s2 e2]|] eqn:Q; [|discriminate]. injection R as <- <-. rewrite app_assoc.
  refine (IH _ _ _ _ (ST _ _ _ _ _ J (A _ (or_introl eq_refl)) D) _ Q). intros x X. apply A. right. exact X.
Qed.
(** A download changes at most the local file of that name. If it succeeds, that is the server's; if it fails, it is as it was, or a
    beginning of the server's. It is as it was if it cannot be written. *)
Theorem C161_get_partial : forall c (s : @kst B) f l s' t, job s = KIdle -> alone l -> krun c s (UGet f :: l) = Some (s', t) ->
  same (there s) (there s') /\ only f (here s) (here s') /\
  (t = [EOk] -> here s' f = there s f) /\ (t = [EFailed] -> rest_of (here s f) (here s' f) (there s f) /\ (write_here c f = false -> here s' f = here s f)) /\
  (job s' = KIdle -> t = [EOk] \/ t = [EFailed]).
Proof.
  intros c s f l s' t I A R. destruct s as [h th j]. cbn in I. subst j. cbn [krun kstep job here there] in R.
  assert (H : G c (mk_k h th KIdle) f s' t).
  { destruct (write_here c f) eqn:W.
    - destruct (krun c (mk_k (write h f []) th (KGet f)) l) as [[s2 e2]|] eqn:Q; [|discriminate R]. injection R as <- <-. cbn [app].
      refine (over (G c (mk_k h th KIdle) f) c (G_step c _ f) l _ [] _ _ _ A Q). split; [intro; reflexivity|]. split; [intros g N; exact (write_other h f [] g N)|]. cbn. rewrite write_same. repeat split. exact W.
    - cbn [here there] in R. destruct (krun c (mk_k h th KIdle) l) as [[s2 e2]|] eqn:Q; [|discriminate R]. injection R as <- <-.
      refine (over (G c (mk_k h th KIdle) f) c (G_step c _ f) l _ [EFailed] _ _ _ A Q). split; [intro; reflexivity|]. split; [intros g N; reflexivity|]. cbn. right. repeat split. left. reflexivity. }
  destruct H as (T & O & J). split; [exact T|]. split; [exact O|]. cbn [here there] in *.
  destruct (job s'); try contradiction; [destruct J as [(-> & J)|(-> & J)]|destruct J as (_ & -> & _)|destruct J as (_ & -> & _)]; repeat split; intros; try discriminate; auto; try apply J; auto.
Qed.
(** The same for an upload and the server's file. *)
Theorem C161_put_partial : forall c (s : @kst B) f l s' t, job s = KIdle -> alone l -> krun c s (UPut f :: l) = Some (s', t) ->
  same (here s) (here s') /\ only f (there s) (there s') /\
  (t = [EOk] -> there s' f = here s f) /\ (t = [EFailed] -> rest_of (there s f) (there s' f) (here s f) /\ (write_there c f = false -> there s' f = there s f)) /\
  (job s' = KIdle -> t = [EOk] \/ t = [EFailed]).
Proof.
  intros c s f l s' t I A R. destruct s as [h th j]. cbn in I. subst j. cbn [krun kstep job here there] in R.
  assert (H : P c (mk_k h th KIdle) f s' t).
  { cbn [here there] in R. destruct (krun c (mk_k h th (KPut f)) l) as [[s2 e2]|] eqn:Q; [|discriminate R]. injection R as <- <-. cbn [app].
    refine (over (P c (mk_k h th KIdle) f) c (P_step c _ f) l _ [] _ _ _ A Q). split; [intro; reflexivity|]. split; [intros g N; reflexivity|]. cbn. repeat split. }
  destruct H as (T & O & J). split; [exact T|]. split; [exact O|]. cbn [here there] in *.
  destruct (job s'); try contradiction; [destruct J as [(-> & J)|(-> & J)]|destruct J as (_ & -> & _)|destruct J as (_ & -> & _)]; repeat split; intros; try discriminate; auto; try apply J; auto.
Qed.
End P.
Print Assumptions C161_get_partial.
Print Assumptions C161_put_partial.
Example C161_get_example : exists s' t, krun all (mk_k (here s12) (write (there s12) 1 [4; 5; 6]) KIdle) [UGet 1; SAnswer; Block 2; Block 1] = Some (s', t) /\ t = [EOk] /\ here s' 1 = Some [4; 5; 6].
Proof. do 2 eexists. split; [vm_compute; reflexivity|]. repeat split. Qed.
Example C161_put_example : exists s' t, krun all s12 [UPut 1; SAnswer; Block 1; Lost] = Some (s', t) /\ t = [EFailed] /\ there s' 1 = Some [7] /\ alone [@SAnswer; Block 1; Lost].
Proof. do 2 eexists. split; [vm_compute; reflexivity|]. split; [reflexivity|]. split; [reflexivity|]. intros a X. cbn in X. intuition (subst; reflexivity). Qed.
