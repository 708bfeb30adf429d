From Coq Require Import List Bool Arith Lia.
From Verif Require Import M_Short S_Short.
Import ListNotations.

(** ** C159: a short link connects once *)
Definition C159_statement : Prop := forall reused l s t, run (short0 reused) l = Some (s, t) -> short t.
(** the thread that sends is late: the link is up before it registers; the server closes the link, and it connects again *)
Theorem C159_twice_refuted : exists l s t, run (short0 false) l = Some (s, t) /\ conns t = 2 /\ s_pc s = CDone /\ s_link s = LUp /\ msgs t = 1.
Proof. exists [SUp; SCall; SCall; SCall; SCall; SWrite; SBreak; SClosed; SUp]. do 2 eexists. split; [vm_compute; reflexivity|]. repeat split. Qed.
Print Assumptions C159_twice_refuted.
(** on_connect runs while the function is being assigned *)
Theorem C159_race_refuted : forall reused, exists l s t, run (short0 reused) l = Some (s, t) /\ races t.
Proof. intros reused. exists [SCall; SUp]. do 2 eexists. split; [reflexivity|]. right. left. reflexivity. Qed.
Print Assumptions C159_race_refuted.
Theorem C159_statement_refuted : ~ C159_statement.
Proof. intro H. destruct C159_twice_refuted as (l & s & t & R & C & _). destruct (H _ _ _ _ R) as (X & _). lia. Qed.
Print Assumptions C159_statement_refuted.

Lemma conns_app a b : conns (a ++ b) = conns a + conns b.
Proof. induction a as [|[] a IH]; cbn; rewrite ?IH; reflexivity. Qed.
Lemma msgs_app a b : msgs (a ++ b) = msgs a + msgs b.
Proof. induction a as [|[] a IH]; cbn; rewrite ?IH; reflexivity. Qed.
(** how many connections are still possible when the function is registered *)
Definition left_c (s : sst) : nat :=
  match s_link s with
  | LConnecting => 1
  | LUp | LClosing => if s_need s then 1 else 0
  | LGone => 0
  end.
Definition left_m (s : sst) : nat := match s_pc s with CDone => if s_buf s then 1 else 0 | _ => if s_buf s then 2 else 1 end.
Definition settled (s : sst) : Prop := s_cb s = true /\ match s_pc s with CAdded | CFirst => False | _ => True end.
Lemma settled_step s a s' e : settled s -> step s a = Some (s', e) -> settled s' /\ ~ races e /\ conns e + left_c s' <= left_c s.
Proof.
  intros [C P] D. unfold settled, left_c, races. destruct s as [pc cb nd lk bf]. cbn in C, P. subst cb.
  destruct a, pc, lk, nd, bf; try contradiction; try discriminate D; injection D as <- <-; cbn; intuition (try discriminate; try lia).
Qed.
(** Whenever the registration is finished, at most one more connection is made, and nothing races. *)
Theorem C159_late : forall reused l s t l' s' t', run (short0 reused) l = Some (s, t) -> 2 <= length (filter (fun a => match a with SCall => true | _ => false end) l) -> run s l' = Some (s', t') -> conns t' <= 1 /\ ~ races t'.
Proof.
  assert (G : forall l s s' t, settled s -> run s l = Some (s', t) -> conns t + left_c s' <= left_c s /\ ~ races t).
  { induction l as [|a l IH]; intros s s' t J R; cbn [run] in R; [injection R as <- <-; split; [cbn; lia|intros []]|].
    destruct (step s a) as [[s1 e1]|] eqn:D; [|discriminate]. destruct (run s1 l) as [[s2 e2]|] eqn:Q; [|discriminate]. injection R as <- <-.
    destruct (settled_step _ _ _ _ J D) as (J1 & N & L). destruct (IH _ _ _ J1 Q) as (L2 & N2). rewrite conns_app. split; [lia|]. intros X. apply in_app_or in X as [X|X]; contradiction. }
  set (cl := fun a => match a with SCall => true | _ => false end).
  assert (P : forall l s s' t k, run s l = Some (s', t) -> (match s_pc s with CAdded => k = 0 | CFirst => k = 1 | _ => s_cb s = true end) -> match s_pc s' with CAdded => k + length (filter cl l) = 0 | CFirst => k + length (filter cl l) = 1 | _ => s_cb s' = true end).
  { induction l as [|a l IH]; intros s s' t k R K; cbn [run] in R; [injection R as <- <-; cbn; destruct (s_pc s); auto; lia|].
    destruct (step s a) as [[s1 e1]|] eqn:D; [|discriminate]. destruct (run s1 l) as [[s2 e2]|] eqn:Q; [|discriminate]. injection R as <- <-.
    specialize (IH _ _ _ (k + length (filter cl [a])) Q). assert (E : length (filter cl (a :: l)) = length (filter cl [a]) + length (filter cl l)) by (cbn; destruct (cl a); reflexivity). rewrite E, Nat.add_assoc. apply IH.
    clear IH E Q. destruct s as [pc cb nd lk bf]. destruct a, pc, lk, nd, bf; try discriminate D; injection D as <- <-; cbn in *; auto; lia. }
  intros reused l s t l' s' t' R L R'. pose proof (P l _ _ _ 0 R eq_refl) as K. cbn [Nat.add] in K. fold cl in L.
  assert (S : settled s) by (split; destruct (s_pc s); auto; lia). destruct (G _ _ _ _ S R') as (X & Y). split; [|exact Y]. assert (left_c s <= 1) by (unfold left_c; destruct (s_link s), (s_need s); lia). lia.
Qed.
Print Assumptions C159_late.
Example C159_late_example : exists s t s' t', run (short0 false) [SUp; SCall; SCall] = Some (s, t) /\ conns t = 1 /\ run s [SCall; SCall; SWrite; SBreak; SClosed; SRefused; SUp; SBreak; SClosed] = Some (s', t') /\ conns t' = 1 /\ s_link s' = LGone.
Proof. do 4 eexists. split; [vm_compute; reflexivity|]. split; [reflexivity|]. split; [vm_compute; reflexivity|]. split; reflexivity. Qed.
(** The message is sent at most once, in every execution. *)
Theorem C159_once : forall reused l s t, run (short0 reused) l = Some (s, t) -> msgs t <= 1.
Proof.
  assert (G : forall l s s' t, run s l = Some (s', t) -> msgs t + left_m s' <= left_m s).
  { induction l as [|a l IH]; intros s s' t R; cbn [run] in R; [injection R as <- <-; cbn; lia|].
    destruct (step s a) as [[s1 e1]|] eqn:D; [|discriminate]. destruct (run s1 l) as [[s2 e2]|] eqn:Q; [|discriminate]. injection R as <- <-. rewrite msgs_app. specialize (IH _ _ _ Q).
    assert (msgs e1 + left_m s1 <= left_m s); [|lia]. clear IH Q. unfold left_m. destruct s as [pc cb nd lk bf]. destruct a, pc, lk, nd, bf; try discriminate D; injection D as <- <-; cbn; lia. }
  intros reused l s t R. pose proof (G _ _ _ _ R) as H. cbn in H. lia.
Qed.
Print Assumptions C159_once.
(** With the registration finished before connecting succeeds, there is one connection, and the link is gone when it ended. *)
Definition K (n : nat) (s : sst) (c : nat) : Prop :=
  match s_pc s with CAdded => n = 3 | CFirst => n = 2 | CSecond => n = 1 /\ s_cb s = true | _ => n = 0 /\ s_cb s = true end /\
  match s_link s with LConnecting => c = 0 /\ s_need s = true | LUp | LClosing => c = 1 /\ s_need s = false /\ s_cb s = true | LGone => c = 1 end.
Lemma K_step n s c a s' e : K n s c -> step s a = Some (s', e) -> after n [a] = true -> K (match a with SCall => pred n | _ => n end) s' (c + conns e) /\ ~ races e.
Proof.
  intros [K1 K2] D A. unfold K, races. destruct s as [pc cb nd lk bf]. cbn in K1, K2.
  destruct a; cbn [after] in A; try (apply andb_true_iff in A as [A _]; apply Nat.eqb_eq in A; subst n); destruct pc, lk, nd, bf; try discriminate D; injection D as <- <-; cbn in *; intuition (subst; cbn; try discriminate; try congruence; try lia).
Qed.
Theorem C159_partial : forall reused l s t, run (short0 reused) l = Some (s, t) -> after registering l = true -> short t /\ (1 <= breaks l -> s_link s = LGone \/ s_link s = LClosing).
Proof.
  intros reused l s t R A.
  assert (G : forall l n s c s' t, K n s c -> after n l = true -> run s l = Some (s', t) -> (exists n', K n' s' (c + conns t)) /\ ~ races t /\ (s_link s = LGone \/ s_link s = LClosing \/ 1 <= breaks l -> s_link s' = LGone \/ s_link s' = LClosing)).
  { clear. induction l as [|a l IH]; intros n s c s' t J A R; cbn [run] in R; [injection R as <- <-; cbn; rewrite Nat.add_0_r; split; [eauto|]; split; [intros []|intros [|[|]]; auto; lia]|].
    destruct (step s a) as [[s1 e1]|] eqn:D; [|discriminate]. destruct (run s1 l) as [[s2 e2]|] eqn:Q; [|discriminate]. injection R as <- <-.
    assert (A1 : after n [a] = true) by (destruct a; cbn in *; auto; apply andb_true_iff in A as [-> _]; reflexivity).
    assert (A2 : after (match a with SCall => pred n | _ => n end) l = true) by (destruct a; cbn in A; auto; apply andb_true_iff in A as [_ A]; exact A).
    destruct (K_step _ _ _ _ _ _ J D A1) as (J1 & N1). destruct (IH _ _ _ _ _ J1 A2 Q) as (J2 & N2 & B2). rewrite conns_app, Nat.add_assoc. split; [exact J2|]. split; [intros X; apply in_app_or in X as [X|X]; contradiction|].
    intros H. apply B2. clear IH J2 N2 B2 Q J1 N1. destruct J as [_ J]. destruct s as [pc cb nd lk bf]. destruct a, pc, lk, nd, bf; try discriminate D; injection D as <- <-; cbn in *; intuition (try discriminate; try lia). }
  destruct (G l 3 (short0 reused) 0 s t) as ((n' & J) & N & B); [split; [reflexivity|split; reflexivity]|exact A|exact R|]. split; [|intros X; apply B; auto].
  split; [|split; [exact (C159_once _ _ _ _ R)|exact N]]. destruct J as [_ J]. cbn [Nat.add] in J. destruct (s_link s); intuition lia.
Qed.
Print Assumptions C159_partial.
Example C159_example : exists s t, run (short0 true) [SCall; SCall; SCall; SRefused; SUp; SCall; SWrite; SBreak; SClosed] = Some (s, t) /\ after registering [SCall; SCall; SCall; SRefused; SUp; SCall; SWrite; SBreak; SClosed] = true /\ t = [EConn; EMsg] /\ s_link s = LGone.
Proof. do 2 eexists. split; [vm_compute; reflexivity|]. repeat split. Qed.
