(** C78: a timer's callback is not used after it was destroyed. *)
From Coq Require Import List Bool Arith Lia.
From Verif Require Import M_Callback.
Import ListNotations.

Definition C78_statement : Prop := forall p l, csteps p c0 l <> None.

(** a graceful shutdown, at the first expiration of its timer *)
Theorem C78_graceful_refuted : exists l, csteps shutdown_prog c0 l = None.
Proof. exists [CSet T_SHUTDOWN 499; CFire T_SHUTDOWN]. vm_compute. reflexivity. Qed.
Print Assumptions C78_graceful_refuted.
Theorem C78_statement_refuted : ~ C78_statement.
Proof. intro C. destruct C78_graceful_refuted as [l H]. exact (C _ _ H). Qed.
Print Assumptions C78_statement_refuted.

(** ** callbacks that do not touch themselves after replacing the callback of the timer they belong to *)
Fixpoint ops_ok (t : nat) (replaced : bool) (l : list cbop) : bool :=
  match l with
  | [] => true
  | Touch :: l' => negb replaced && ops_ok t replaced l'
  | Set_cb u _ :: l' => ops_ok t (replaced || (u =? t)) l'
  end.
(** [own code]: the timer for which callbacks of that code are used *)
Definition polite (p : prog) (own : nat -> nat) : Prop := forall code, ops_ok (own code) false (p code) = true.
(** every callback it sets is one for that timer *)
Fixpoint sets_ok (own : nat -> nat) (l : list cbop) : bool := match l with [] => true | Touch :: l' => sets_ok own l' | Set_cb t c :: l' => (own c =? t) && sets_ok own l' end.

Record CI (own : nat -> nat) (s : cst) : Prop := mk_CI {
  ci_alive : forall t o c, c_slot s t = Some (o, c) -> In o (c_alive s) /\ own c = t /\ o < c_next s;
  ci_inj : forall t u o c d, c_slot s t = Some (o, c) -> c_slot s u = Some (o, d) -> t = u }.
Lemma set_cb_ok : forall own s t code, CI own s -> own code = t -> CI own (set_cb s t code).
Proof.
  intros own s t code [A J] O. assert (Fr : forall u o c, c_slot s u = Some (o, c) -> o <> c_next s) by (intros u o c H; destruct (A _ _ _ H) as (_ & _ & L); lia).
  assert (S : c_slot (set_cb s t code) = upd_slot (c_slot s) t (Some (c_next s, code)) /\ c_next (set_cb s t code) = S (c_next s)) by (unfold set_cb; cbn; destruct (c_slot s t) as [[? ?]|]; cbn; auto).
  destruct S as [S1 S2]. constructor.
  - intros u o c H. rewrite S1 in H. rewrite S2. unfold upd_slot in H. destruct (Nat.eqb_spec u t) as [->|N].
    + injection H as <- <-. split; [|split; [exact O | lia]]. unfold set_cb; cbn. destruct (c_slot s t) as [[o' c']|] eqn:E; cbn; [|left; reflexivity].
      destruct (Nat.eq_dec o' (c_next s)) as [Z|Z]; [exfalso; exact (Fr _ _ _ E Z) | left; reflexivity].
    + destruct (A _ _ _ H) as (B1 & B2 & B3). split; [|split; [exact B2 | lia]]. unfold set_cb; cbn. destruct (c_slot s t) as [[o' c']|] eqn:E; cbn; [|right; exact B1].
      destruct (Nat.eq_dec o' (c_next s)) as [Z|Z]; [exfalso; exact (Fr _ _ _ E Z)|]. right. apply in_in_remove; [|exact B1]. intros ->. apply N. exact (J _ _ _ _ _ H E).
  - intros u v o c d Hu Hv. rewrite S1 in Hu, Hv. unfold upd_slot in *. destruct (Nat.eqb_spec u t) as [->|Nu], (Nat.eqb_spec v t) as [->|Nv]; auto.
    + injection Hu as <- <-. exfalso. exact (Fr _ _ _ Hv eq_refl).
    + injection Hv as <- <-. exfalso. exact (Fr _ _ _ Hu eq_refl).
    + exact (J _ _ _ _ _ Hu Hv).
Qed.
Lemma run_ok : forall own l s o t b, CI own s -> sets_ok own l = true -> ops_ok t b l = true ->
  (b = false -> exists c, c_slot s t = Some (o, c)) -> exists s', run_cb s o l = Some s' /\ CI own s'.
Proof.
  intros own; induction l as [|x l IH]; intros s o t b C S P H; [exists s; split; auto|]. destruct x as [|u c]; cbn in *.
  - apply andb_true_iff in P. destruct P as [P1 P2]. apply negb_true_iff in P1. subst b. destruct (H eq_refl) as [c Hc].
    destruct (ci_alive _ _ C _ _ _ Hc) as [Al _]. assert (E : existsb (Nat.eqb o) (c_alive s) = true) by (apply existsb_exists; exists o; split; [exact Al | apply Nat.eqb_refl]).
    rewrite E. eapply IH; eauto.
  - apply andb_true_iff in S. destruct S as [S1 S2]. apply Nat.eqb_eq in S1.
    eapply IH; [apply set_cb_ok; assumption | exact S2 | exact P |]. intro Z. apply orb_false_iff in Z. destruct Z as [Z1 Z2]. destruct (H Z1) as [d Hd]. exists d.
    unfold set_cb; cbn. destruct (c_slot s u) as [[? ?]|]; cbn; unfold upd_slot; rewrite (Nat.eqb_sym t u), Z2; exact Hd.
Qed.
(** C78_statement for callbacks that do not touch themselves after replacing themselves; missing: those that do, for which it is false *)
Theorem C78_partial : forall p own l,
  polite p own -> (forall code, sets_ok own (p code) = true) -> (forall t c, In (CSet t c) l -> own c = t) -> csteps p c0 l <> None.
Proof.
  intros p own l P S L. assert (G : forall l s, CI own s -> (forall t c, In (CSet t c) l -> own c = t) -> csteps p s l <> None).
  { clear l L. induction l as [|a l IH]; intros s C L; cbn; [discriminate|]. destruct a as [t c|t]; cbn.
    - apply IH; [apply set_cb_ok; [exact C | apply L; left; reflexivity] | intros u d H; apply L; right; exact H].
    - destruct (c_slot s t) as [[o c]|] eqn:E; [|apply IH; [exact C | intros u d H; apply L; right; exact H]].
      destruct (ci_alive _ _ C _ _ _ E) as (_ & Ow & _).
      destruct (run_ok own (p c) s o t false C (S c)) as (s' & R & C'); [rewrite <- Ow; apply P | intros _; exists c; exact E |].
      rewrite R. apply IH; [exact C' | intros u d H; apply L; right; exact H]. }
  apply G; [|exact L]. constructor; cbn; discriminate.
Qed.
Print Assumptions C78_partial.
(** the timers of connecting: a failed attempt starts the other timer, whose callback starts the first *)
Example C78_example : let own := fun c => match c with O => T_CONNECT | _ => T_DELAY end in
  polite connect_prog own /\ (forall code, sets_ok own (connect_prog code) = true) /\
  csteps connect_prog c0 [CSet T_CONNECT 0; CFire T_CONNECT; CSet T_DELAY 1; CFire T_DELAY; CFire T_CONNECT; CSet T_DELAY 1; CFire T_DELAY] <> None.
Proof. cbn zeta. split; [intros [|n]; reflexivity|]. split; [intros [|n]; reflexivity|]. vm_compute. discriminate. Qed.
