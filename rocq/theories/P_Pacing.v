(** C127: a refused message is offered again only after msg_handling_interval. *)
From Coq Require Import List NArith Bool Arith Lia.
From Verif Require Import M_FTimer M_Dispatch S_Dispatch L_Dispatch P_Dispatch.
Import ListNotations.
Open Scope nat_scope.

Definition C127_statement : Prop := forall l s tr, dsteps d0 l = Some (s, tr) -> paced l.
(** Two reads complete before the first message is offered: each of them posts a call of do_dispatch_msg. The first call offers message 1, which is
    refused, and starts the timer; the second one offers it again at once. One service thread is enough. *)
Theorem C127_refuted : exists l s tr, dsteps d0 l = Some (s, tr) /\ tr = [ERecv [1%N]; ERecv [2%N]; EPresent (Some 1%N); EResult (Some 1%N) false; EPresent (Some 1%N)] /\ ~ In DExpire l /\ ~ paced l.
Proof.
  exists [DRecv [1%N]; DTest; DPost; DRecv [2%N]; DTest; DPost; DRun; DMark; DRet false; DSetA; DSetB; DRun; DMark]. do 2 eexists. split; [vm_compute; reflexivity|].
  split; [reflexivity|]. split; [intro H; cbn in H; intuition discriminate|]. unfold paced. vm_compute. congruence.
Qed.
Print Assumptions C127_refuted.
Theorem C127_statement_refuted : ~ C127_statement.
Proof. intro S. destruct C127_refuted as (l & s & tr & R & _ & _ & P). exact (P (S l s tr R)). Qed.
Print Assumptions C127_statement_refuted.

(** It holds if messages arrive only while nothing is left to do for the dispatcher, or while a message is being offered or held (whatever threads
    and closing do). *)
Definition okq (f : ft) : nat := length (filter snd (f_q f)).
Definition waits (f : ft) : nat := match f_wait f with Some _ => 1 | None => 0 end.
Definition busy (s : dst) : nat := match dpc s with PIdle => 0 | _ => 1 end.
Definition idle (s : dst) : bool := (posted s =? 0) && (busy s =? 0) && (waits (tm s) =? 0) && (okq (tm s) =? 0).
Definition apart (s : dst) (a : daction) : bool := match a with DTest => disp s || idle s | _ => true end.
Fixpoint aparts (s : dst) (l : list daction) : bool :=
  match l with
  | [] => true
  | a :: l' => apart s a && match dstep s a with Some (s1, _) => aparts s1 l' | None => true end
  end.
Definition posting (s : dst) : nat := match ipc s with IPost => 1 | _ => 0 end.
Record pinv (s : dst) (p : pause) : Prop := mk_pinv {
  p_d : dinv s;
  p_one : posted s + busy s + waits (tm s) + okq (tm s) + posting s <= 1;
  p_run : Forall (fun '(h, _) => h <> HAgain) (f_run (tm s));
  p_ref : p = PRefused -> dpc s = PSet1 \/ dpc s = PSet2;
  p_wait : p = PWaiting -> dpc s = PIdle /\ disp s = true /\ posted s = 0 /\ okq (tm s) = 0 /\ posting s = 0
}.
Lemma okq_stop f : okq (ft_stop f) = okq f.
Proof. unfold okq, ft_stop, abort. destruct (f_on f); [|reflexivity]. cbn. destruct (f_wait f); [|reflexivity]. rewrite filter_app. cbn. rewrite app_nil_r. reflexivity. Qed.
Lemma okq_set1 f : okq (ft_set1 f) = okq f.
Proof. unfold okq, ft_set1, abort. cbn. destruct (f_wait f); [|reflexivity]. rewrite filter_app. cbn. rewrite app_nil_r. reflexivity. Qed.
Lemma waits_stop f : waits (ft_stop f) <= waits f.
Proof. unfold waits, ft_stop. destruct (f_on f); cbn; [destruct (f_wait f)|]; lia. Qed.
Lemma run_stop f : f_run (ft_stop f) = f_run f.
Proof. unfold ft_stop. destruct (f_on f); reflexivity. Qed.
Lemma okq_remove : forall (q : list (N * bool)) k w ok, nth_error q k = Some (w, ok) -> length (filter snd q) = length (filter snd (remove_at k q)) + (if ok then 1 else 0).
Proof.
  unfold remove_at. induction q as [|[v o] q IH]; intros [|k] w ok E; try discriminate.
  - injection E as -> ->. cbn. destruct ok; cbn; lia.
  - cbn in E. cbn [firstn skipn app filter snd]. pose proof (IH k w ok E) as X. cbn [skipn] in X. destruct o; cbn [length]; lia.
Qed.
Lemma run_remove {A} (P : A -> Prop) : forall l j, Forall P l -> Forall P (remove_at j l).
Proof.
  unfold remove_at. induction l as [|x l IH]; intros j F; [destruct j; constructor|]. inversion F; subst. destruct j as [|j]; cbn [firstn skipn app]; [assumption|]. constructor; [assumption|]. exact (IH j H2).
Qed.
Ltac pj := cbn [up rb dm disp posted dpc ipc tm] in *.
Lemma pinv_step s p a s' tr : pinv s p -> apart s a = true -> dstep s a = Some (s', tr) -> exists p', pause_step p a = Some p' /\ pinv s' p'.
Proof.
  intros [D O R RF WT] AP H. pose proof (proj1 (dstep_inv _ _ _ _ D H)) as D'. unfold dstep in H. unfold busy, posting in *.
  destruct a; cbn [apart] in AP.
  - destruct (ipc s) eqn:IP; try discriminate. inversion H; subst. exists p. split; [reflexivity|]. constructor; unfold busy, posting; pj; auto; [destruct ms; lia|]. intro E. destruct (WT E) as (A & B & C & X & _). destruct ms; auto.
  - destruct (ipc s) eqn:IP; try discriminate. inversion H; subst. exists p. split; [reflexivity|]. destruct (disp s) eqn:DS.
    + constructor; unfold busy, posting; pj; auto.
    + cbn in AP. unfold idle, busy in AP. apply andb_prop in AP as [AP Q4]. apply andb_prop in AP as [AP Q3]. apply andb_prop in AP as [Q1 Q2]. apply Nat.eqb_eq in Q1, Q2, Q3, Q4.
      constructor; unfold busy, posting; pj; auto; [lia|]. intro E. destruct (WT E) as (_ & B & _). discriminate.
  - destruct (ipc s) eqn:IP; try discriminate. inversion H; subst. exists p. split; [reflexivity|]. constructor; unfold busy, posting; pj; auto; [lia|]. intro E. destruct (WT E) as (_ & _ & _ & _ & B). discriminate.
  - destruct (dpc s) eqn:DP; try (destruct (ipc s); discriminate). destruct (posted s) as [|n] eqn:PO; [destruct (ipc s); discriminate|].
    exists p. split; [reflexivity|]. assert (NW : p <> PWaiting) by (intro E; destruct (WT E) as (_ & _ & B & _); discriminate). assert (NR : p <> PRefused) by (intro E; destruct (RF E); discriminate).
    destruct (disp s); [|destruct (rb s)]; destruct (ipc s) eqn:IP; inversion H; subst; constructor; unfold busy, posting; pj; auto; try tauto; try congruence; rewrite ?IP; lia.
  - destruct (dpc s) eqn:DP; try (destruct (ipc s); discriminate).
    assert (NW : p <> PWaiting) by (intro E; destruct (WT E) as (B & _); discriminate). assert (NR : p <> PRefused) by (intro E; destruct (RF E); discriminate).
    destruct p; try congruence. exists PFree. split; [reflexivity|]. destruct (ipc s) eqn:IP; inversion H; subst; constructor; unfold busy, posting; pj; auto; try congruence; rewrite ?IP; lia.
  - destruct (dpc s) eqn:DP; try (destruct (ipc s); discriminate).
    destruct ok; eexists; (split; [reflexivity|]); destruct (ipc s) eqn:IP; inversion H; subst; constructor; unfold busy, posting; pj; auto; try congruence; rewrite ?IP; lia.
  - destruct (dpc s) eqn:DP; try (destruct (ipc s); discriminate).
    assert (NW : p <> PWaiting) by (intro E; destruct (WT E) as (B & _); discriminate). assert (NR : p <> PRefused) by (intro E; destruct (RF E); discriminate).
    exists p. split; [reflexivity|]. destruct (ipc s) eqn:IP; inversion H; subst; constructor; unfold busy, posting; pj; auto; try congruence; rewrite ?IP; lia.
  - destruct (dpc s) eqn:DP; try (destruct (ipc s); discriminate).
    assert (NW : p <> PWaiting) by (intro E; destruct (WT E) as (B & _); discriminate). assert (NR : p <> PRefused) by (intro E; destruct (RF E); discriminate).
    exists p. split; [reflexivity|]. destruct (ipc s) eqn:IP; inversion H; subst; constructor; unfold busy, posting; pj; auto; try congruence; rewrite ?IP; lia.
  - destruct (dpc s) eqn:DP; try (destruct (ipc s); discriminate).
    assert (NW : p <> PWaiting) by (intro E; destruct (WT E) as (B & _); discriminate).
    exists p. split; [reflexivity|]. destruct (ipc s) eqn:IP; inversion H; subst; constructor; unfold busy, posting; pj; rewrite ?okq_set1; auto; try congruence; rewrite ?IP; unfold waits, ft_set1; cbn; lia.
  - destruct (dpc s) eqn:DP; try (destruct (ipc s); discriminate).
    assert (NW : p <> PWaiting) by (intro E; destruct (WT E) as (B & _); discriminate).
    assert (DS : disp s = true) by (apply (di_disp s D); auto).
    exists (match p with PRefused => PWaiting | _ => p end). split; [destruct p; reflexivity|].
    destruct (ipc s) eqn:IP; inversion H; subst; constructor; unfold busy, posting; pj; unfold waits, okq, ft_set2 in *; cbn [f_wait f_q f_run] in *; auto; try (destruct p; congruence); try lia;
      intros _; rewrite ?IP; repeat split; auto; lia.
  - assert (X : exists f, ft_expire (tm s) = Some f /\ s' = set_tm s f (posted s)) by (destruct (ft_expire (tm s)) as [f|]; destruct (ipc s); destruct (dpc s); try discriminate; inversion H; eauto).
    destruct X as (f & X & ->). unfold ft_expire in X. destruct (f_wait (tm s)) as [w|] eqn:W; [|discriminate]. injection X as <-. exists (match p with PWaiting => PFree | _ => p end). split; [destruct p; reflexivity|].
    constructor; unfold set_tm, busy, posting; pj; auto.
    + unfold waits, okq in *. rewrite W in O. cbn [f_wait f_q]. rewrite filter_app, app_length. cbn. lia.
    + destruct p; try congruence; auto.
    + destruct p; congruence.
  - assert (X : exists f c, ft_begin (tm s) k false = Some (f, c) /\ s' = set_tm s f (if c then S (posted s) else posted s)) by (destruct (ft_begin (tm s) k false) as [[f c]|]; destruct (ipc s); destruct (dpc s); try discriminate; inversion H; eauto).
    destruct X as (f & c & X & ->). exists p. split; [reflexivity|]. unfold ft_begin in X. destruct (nth_error (f_q (tm s)) k) as [[w ok]|] eqn:NK; [|discriminate]. pose proof (okq_remove _ _ _ _ NK) as OR.
    assert (Y : f_wait f = f_wait (tm s) /\ f_q f = remove_at k (f_q (tm s)) /\ f_run f = (HSeq, w) :: f_run (tm s) /\ c = f_on (tm s) && ok) by (destruct (f_on (tm s) && ok); inversion X; subst; auto).
    destruct Y as (Y1 & Y2 & Y3 & ->). constructor; unfold set_tm, busy, posting, waits, okq in *; pj; rewrite ?Y1, ?Y2, ?Y3; auto.
    + destruct (f_on (tm s)), ok; cbn [andb] in *; lia.
    + constructor; [discriminate | exact R].
    + intro E. destruct (WT E) as (A & B & C & Q & V). destruct ok; [lia|]. rewrite andb_false_r. repeat split; auto; lia.
  - assert (X : exists f, ft_step (tm s) j = Some f /\ s' = set_tm s f (posted s)) by (destruct (ft_step (tm s) j) as [f|]; destruct (ipc s); destruct (dpc s); try discriminate; inversion H; eauto).
    destruct X as (f & X & ->). exists p. split; [reflexivity|]. unfold ft_step in X. destruct (nth_error (f_run (tm s)) j) as [[h w]|] eqn:NJ; [|discriminate].
    assert (HA : h <> HAgain) by (apply nth_error_In in NJ; rewrite Forall_forall in R; exact (R _ NJ)). pose proof (run_remove _ _ j R) as RR.
    assert (Y : f_wait f = f_wait (tm s) /\ f_q f = f_q (tm s) /\ Forall (fun '(h, _) => h <> HAgain) (f_run f)).
    { destruct h; [congruence| |]; inversion X; subst; cbn; repeat split; auto. destruct (same_seq w (f_no (tm s))); [constructor; [discriminate | exact RR] | exact RR]. }
    destruct Y as (Y1 & Y2 & Y3). constructor; unfold set_tm, busy, posting, waits, okq in *; pj; rewrite ?Y1, ?Y2; auto.
  - exists p. split; [reflexivity|]. assert (X : s' = mk_d false (rb s) (dm s) (disp s) (posted s) (dpc s) (ipc s) (ft_stop (tm s))) by (destruct (up s); destruct (ipc s); destruct (dpc s); inversion H; reflexivity).
    subst. pose proof (waits_stop (tm s)). constructor; unfold busy, posting; pj; rewrite ?okq_stop, ?run_stop; auto. lia.
  - exists p. split; [reflexivity|]. assert (X : s' = mk_d (up s) (rb s) (dm s) (disp s) (posted s) (dpc s) (ipc s) (ft_stop (tm s))) by (destruct (up s); destruct (ipc s); destruct (dpc s); inversion H; reflexivity).
    subst. pose proof (waits_stop (tm s)). constructor; unfold busy, posting; pj; rewrite ?okq_stop, ?run_stop; auto. lia.
  - exists p. split; [reflexivity|]. assert (X : s' = mk_d true (rb s) (dm s) (disp s) (posted s) (dpc s) (ipc s) (tm s)).
    { destruct (ipc s) eqn:IP; try discriminate. destruct (dpc s) eqn:DP; try discriminate. destruct (up s); [discriminate|]. destruct (posted s); [|discriminate]. destruct (ft_quiet (tm s)); inversion H. reflexivity. }
    subst. constructor; unfold busy, posting; pj; auto.
Qed.
Lemma pinv_run : forall l s p s' tr, pinv s p -> aparts s l = true -> dsteps s l = Some (s', tr) -> pause_run p l <> None.
Proof.
  induction l as [|a l IH]; intros s p s' tr I AP H; cbn in *; [discriminate|]. apply andb_prop in AP as [A1 A2].
  destruct (dstep s a) as [[s1 t1]|] eqn:E; [|discriminate]. destruct (dsteps s1 l) as [[s2 t2]|] eqn:E2; [|discriminate]. destruct (pinv_step _ _ _ _ _ I A1 E) as (p' & -> & I'). exact (IH _ _ _ _ I' A2 E2).
Qed.
Theorem C127_partial : forall l s tr, aparts d0 l = true -> dsteps d0 l = Some (s, tr) -> paced l.
Proof.
  intros l s tr A H. refine (pinv_run l d0 PFree s tr _ A H). constructor; try discriminate; [exact d0_inv | cbn; lia | constructor].
Qed.
Print Assumptions C127_partial.
(** two messages at once, refusals, and more messages while one is held *)
Example C127_ex : exists l s tr, aparts d0 l = true /\ dsteps d0 l = Some (s, tr) /\
  tr = [ERecv [1%N; 2%N]; EPresent (Some 1%N); EResult (Some 1%N) false; ERecv [3%N]; EPresent (Some 1%N); EResult (Some 1%N) true; EPresent (Some 2%N)].
Proof.
  exists [DRecv [1%N; 2%N]; DTest; DPost; DRun; DMark; DRet false; DSetA; DSetB; DRecv [3%N]; DTest; DExpire; DBegin 0; DRun; DMark; DStep 0; DStep 0; DRet true; DClear; DRepost; DRun; DMark]. do 2 eexists.
  split; [vm_compute; reflexivity|]. split; [vm_compute; reflexivity|]. reflexivity.
Qed.
