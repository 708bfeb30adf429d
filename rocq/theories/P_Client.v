From Coq Require Import List Bool Arith Lia.
From Verif Require Import M_Client S_Client.
Import ListNotations.

(** ** C160: the receiving thread is there while the service works *)
Definition C160_statement : Prop := forall l s t, run client0 l = Some (s, t) -> working s -> receivable s.
Lemma ended_stays : forall l s s' t, run s l = Some (s', t) -> c_thr s = TEnd -> (match c_main s with MLoop | MJoin false | MEnd => True | _ => False end) -> no_restart l -> c_thr s' = TEnd /\ ~ In ESync t.
Proof.
  induction l as [|a l IH]; intros s s' t R E M N; cbn [run] in R; [injection R as <- <-; split; [exact E|intros []]|].
  destruct (step s a) as [[s1 e1]|] eqn:D; [|discriminate]. destruct (run s1 l) as [[s2 e2]|] eqn:Q; [|discriminate]. injection R as <- <-.
  assert (G : c_thr s1 = TEnd /\ (match c_main s1 with MLoop | MJoin false | MEnd => True | _ => False end) /\ ~ In ESync e1).
  { assert (a <> AStop true) as NA by (intros ->; apply N; left; reflexivity). clear Q IH. destruct s as [rn st th mn]. cbn in E, M. subst th.
    destruct a as [[|]| | | | | | | |], mn as [|[|]| |], rn, st; try contradiction; try discriminate D; try (exfalso; apply NA; reflexivity); injection D as <- <-; cbn; intuition discriminate. }
  destruct G as (E1 & M1 & N1). destruct (IH _ _ _ Q E1 M1) as (E2 & N2); [intros X; apply N; right; exact X|]. split; [exact E2|]. intros X. apply in_app_or in X as [X|X]; contradiction.
Qed.
(** A thread that has ended gets nothing any more, until the user restarts. *)
Theorem C160_gone : forall l s t l' s' t', run client0 l = Some (s, t) -> working s -> c_thr s = TEnd -> run s l' = Some (s', t') -> no_restart l' -> ~ In ESync t'.
Proof. intros l s t l' s' t' _ (M & _ & _) E R N. apply (ended_stays _ _ _ _ R E); [rewrite M; exact I|exact N]. Qed.
Print Assumptions C160_gone.
Lemma not_receivable s : working s -> c_thr s = TEnd -> ~ receivable s.
Proof.
  intros (M & _ & _) E (l & s' & t & R & I1 & A). destruct (ended_stays _ _ _ _ R E) as (_ & X); [rewrite M; exact I| |contradiction].
  intros X. apply in_app_or in X as [X|[X|[]]]; [|discriminate X]. apply A in X. discriminate X.
Qed.
(** the server closes the link: the thread ends; the link connects again, and messages arrive *)
Theorem C160_break_refuted : exists l s t, run client0 l = Some (s, t) /\ working s /\ c_thr s = TEnd /\ ~ receivable s /\ t = [ESync; EEnds; EHandler].
Proof.
  exists [ACall; AMsg; ACall; ABreak; AWake; AAgain; AMsg]. do 2 eexists. split; [vm_compute; reflexivity|]. assert (W : working (mk_c true true TEnd MLoop)) by (repeat split).
  split; [exact W|]. split; [reflexivity|]. split; [exact (not_receivable _ W eq_refl)|reflexivity].
Qed.
Print Assumptions C160_break_refuted.
(** the link is closed between two calls: the next call does not wait for the link to connect again *)
Theorem C160_between_refuted : exists l s t, run client0 l = Some (s, t) /\ ~ In AWake l /\ working s /\ c_thr s = TEnd /\ ~ receivable s /\ t = [ESync; EEnds; EHandler].
Proof.
  exists [ACall; AMsg; ABreak; ACall; AAgain; AMsg]. do 2 eexists. split; [vm_compute; reflexivity|]. split; [cbn; intuition discriminate|]. assert (W : working (mk_c true true TEnd MLoop)) by (repeat split).
  split; [exact W|]. split; [reflexivity|]. split; [exact (not_receivable _ W eq_refl)|reflexivity].
Qed.
Print Assumptions C160_between_refuted.
(** restart: the new thread calls before start_service *)
Theorem C160_restart_refuted : exists l s t, run client0 l = Some (s, t) /\ ~ In ABreak l /\ working s /\ c_thr s = TEnd /\ ~ receivable s /\ t = [EEnds; EEnds; EHandler].
Proof.
  exists [ACall; AStop true; AWake; AJoined; ACall; AStart; AMsg]. do 2 eexists. split; [vm_compute; reflexivity|]. split; [cbn; intuition discriminate|]. assert (W : working (mk_c true true TEnd MLoop)) by (repeat split).
  split; [exact W|]. split; [reflexivity|]. split; [exact (not_receivable _ W eq_refl)|reflexivity].
Qed.
Print Assumptions C160_restart_refuted.
Theorem C160_statement_refuted : ~ C160_statement.
Proof. intro H. destruct C160_break_refuted as (l & s & t & R & W & _ & N & _). exact (N (H _ _ _ R W)). Qed.
Print Assumptions C160_statement_refuted.
Example C160_gone_example : exists s t s' t', run client0 [ACall; ABreak; AWake; AAgain] = Some (s, t) /\ working s /\ run s [AMsg; ABreak; AAgain; AMsg] = Some (s', t') /\ no_restart [AMsg; ABreak; AAgain; AMsg] /\ t' = [EHandler; EHandler].
Proof. do 4 eexists. split; [vm_compute; reflexivity|]. split; [repeat split|]. split; [vm_compute; reflexivity|]. split; [cbv; intuition discriminate|reflexivity]. Qed.

(** If no link is closed, and new threads come late enough, messages can always be received synchronously while the service works. *)
Definition J (b : bool) (s : cst) : Prop :=
  match c_main s with
  | MLoop => c_run s = true /\ c_started s = true /\ c_thr s <> TEnd /\ b = false
  | MJoin _ => c_run s = false /\ b = false
  | MStart => c_thr s = TCall /\ c_run s = false /\ b = true
  | MEnd => c_run s = false
  end.
Theorem C160_partial : forall l s t, run client0 l = Some (s, t) -> calm false l = true -> working s -> receivable s.
Proof.
  assert (G : forall l b s s' t, J b s -> calm b l = true -> run s l = Some (s', t) -> exists b', J b' s').
  { induction l as [|a l IH]; intros b s s' t K C R; cbn [run] in R; [injection R as <- <-; eauto|].
    destruct (step s a) as [[s1 e1]|] eqn:D; [|discriminate]. destruct (run s1 l) as [[s2 e2]|] eqn:Q; [|discriminate]. injection R as <- <-.
    assert (X : exists b1, J b1 s1 /\ calm b1 l = true); [|destruct X as (b1 & K1 & C1); exact (IH _ _ _ _ K1 C1 Q)].
    clear IH Q. unfold J in *. destruct s as [rn st th mn]. cbn in K.
    destruct a as [[|]| | | | | | | |], mn as [|[|]| |], rn, st, th; try discriminate D; injection D as <- <-; cbn in *; try discriminate C; try (apply andb_true_iff in C as [C0 C]); try (destruct b; try discriminate C0); try (eexists; split; [|exact C]); intuition (try discriminate; try congruence). }
  intros l s t R C W. destruct (G l false client0 s t) as (b & K); [cbn; repeat split; discriminate|exact C|exact R|]. destruct W as (M & Rn & St). unfold J in K. rewrite M in K. destruct K as (_ & _ & T & _).
  destruct s as [rn st th mn]. cbn in *. subst. destruct th; [exists [ACall]|exists []|contradiction T; reflexivity]; do 2 eexists; (split; [vm_compute; reflexivity|]); cbn; intuition (subst; auto).
Qed.
Print Assumptions C160_partial.
Example C160_example : exists s t, run client0 [ACall; AMsg; ACall; ATimeout; AStop true; ACall; AJoined; AStart; ACall; AMsg] = Some (s, t) /\ calm false [ACall; AMsg; ACall; ATimeout; AStop true; ACall; AJoined; AStart; ACall; AMsg] = true /\ working s /\ t = [ESync; EEnds; ESync].
Proof. do 2 eexists. split; [vm_compute; reflexivity|]. split; [reflexivity|]. split; [repeat split|reflexivity]. Qed.

(** quit and restart never wait for the thread forever: it can go on until it has ended, which takes it at most one more step. *)
Theorem C160_join : forall l s t r, run client0 l = Some (s, t) -> c_main s = MJoin r ->
  (c_thr s = TEnd /\ exists s', step s AJoined = Some (s', [])) \/
  (exists a s', own a = true /\ step s a = Some (s', [EEnds])) /\ forall a s' e, own a = true -> step s a = Some (s', e) -> c_thr s' = TEnd /\ c_main s' = MJoin r.
Proof.
  assert (G : forall l s s' t, (match c_main s with MLoop => c_run s = true | MJoin _ | MStart | MEnd => c_run s = false /\ c_started s = false end) -> run s l = Some (s', t) -> (match c_main s' with MLoop => c_run s' = true | MJoin _ | MStart | MEnd => c_run s' = false /\ c_started s' = false end)).
  { induction l as [|a l IH]; intros s s' t K R; cbn [run] in R; [injection R as <- <-; exact K|].
    destruct (step s a) as [[s1 e1]|] eqn:D; [|discriminate]. destruct (run s1 l) as [[s2 e2]|] eqn:Q; [|discriminate]. injection R as <- <-. refine (IH _ _ _ _ Q). clear IH Q.
    destruct s as [rn st th mn]. cbn in K. destruct a as [[|]| | | | | | | |], mn as [|[|]| |], rn, st, th; try discriminate D; injection D as <- <-; cbn in *; intuition (try discriminate; try congruence). }
  intros l s t r R M. pose proof (G l client0 s t eq_refl R) as K. rewrite M in K. destruct K as (K1 & K2). destruct s as [rn st th mn]. cbn in *. subst. destruct th.
  - right. split; [exists ACall; eexists; split; reflexivity|]. intros [] s' e O D; try discriminate O; try discriminate D; injection D as <- <-; split; reflexivity.
  - right. split; [exists AWake; eexists; split; reflexivity|]. intros [] s' e O D; try discriminate O; try discriminate D; injection D as <- <-; split; reflexivity.
  - left. split; [reflexivity|]. destruct r; eexists; reflexivity.
Qed.
Print Assumptions C160_join.
Example C160_join_example : exists s t, run client0 [ACall; AMsg; ACall; AStop false] = Some (s, t) /\ c_main s = MJoin false /\ c_thr s = TWait.
Proof. do 2 eexists. split; [vm_compute; reflexivity|]. split; reflexivity. Qed.
