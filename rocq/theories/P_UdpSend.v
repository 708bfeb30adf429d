(** C57: UDP sends one datagram at a time, in order, and survives errors. *)
From Coq Require Import List NArith Bool Arith Lia Permutation ZifyBool ZifyNat ZifyN.
From Verif Require Import M_FTimer M_Dispatch L_Dispatch M_RecvFlow P_RecvFlow M_UdpSend.
Import ListNotations.
Open Scope N_scope.

(** ** one at a time, in order *)
(** What an observer of insertions, starts and completions requires: the message started is the first one queued, nothing is in
    progress then, and a completion is that of the message in progress. *)
Fixpoint replay (q : list N) (cur : option N) (tr : list uev) : option (list N * option N) :=
  match tr with
  | [] => Some (q, cur)
  | EvQueued p m :: tr' => replay (if p then m :: q else q ++ [m]) cur tr'
  | EvStart m :: tr' => match cur, q with None, x :: q' => if x =? m then replay q' (Some m) tr' else None | _, _ => None end
  | EvDone m _ :: tr' => match cur with Some x => if x =? m then replay q None tr' else None | None => None end
  end.
Lemma replay_app t1 : forall t2 q c, replay q c (t1 ++ t2) = match replay q c t1 with Some (q', c') => replay q' c' t2 | None => None end.
Proof.
  induction t1 as [|e t1 IH]; intros t2 q c; [reflexivity|]. cbn [app replay]. destruct e as [p m|m|m r].
  - apply IH.
  - destruct c; [reflexivity|]. destruct q as [|x q']; [reflexivity|]. destruct (x =? m); [apply IH|reflexivity].
  - destruct c as [x|]; [|reflexivity]. destruct (x =? m); [apply IH|reflexivity].
Qed.

Definition hold (p : uphase) : nat := match p with UDo true | UTake | USet1 | USet2 | UClr | UErr => 1%nat | _ => O end.
Definition utoks (s : ust) : nat := (length (u_fly s) + hold (u_pc s) + length (toks (u_tm s)))%nat.
Definition b2n (b : bool) : nat := if b then 1%nat else O.
Definition uinv (s : ust) : Prop := (utoks s <= b2n (u_flag s))%nat.
Definition cur (s : ust) : option N := match u_fly s with [] => None | m :: _ => Some m end.
Lemma toks_stop f : (length (toks (ft_stop f)) <= length (toks f))%nat.
Proof. unfold ft_stop. destruct (f_on f); [|lia]. unfold toks, abort. cbn [f_wait f_q f_run]. destruct (f_wait f); [rewrite filter_app; cbn [filter snd]; rewrite app_nil_r; cbn [app length]; lia|lia]. Qed.
Lemma remove_at_len {A} k (l : list A) x : nth_error l k = Some x -> length l = S (length (remove_at k l)).
Proof. intros H. pose proof (Permutation_length (remove_at_perm k l x H)) as P. exact P. Qed.
Ltac fields := cbn [u_buf u_fly u_flag u_chk u_ld u_post u_pc u_ready u_open u_win u_res u_tm set_pc set_buf set_fly set_flag set_chk set_ld set_post set_res set_tm set_win set_open] in *.

Lemma uinv_step cc s a s' tr : uinv s -> ustep cc s a = Some (s', tr) -> uinv s' /\ replay (u_buf s) (cur s) tr = Some (u_buf s', cur s').
Proof.
  unfold uinv, utoks, cur. intros I H. destruct a; cbn [ustep] in H.
  - inversion H; subst; clear H. fields. split; [exact I|reflexivity].
  - destruct (u_chk s); [discriminate|]. inversion H; subst; clear H. destruct (u_ready s); fields; split; [exact I|reflexivity|exact I|reflexivity].
  - destruct (u_ld s); [discriminate|]. inversion H; subst; clear H. destruct (u_flag s) eqn:FF; fields; rewrite FF; split; [exact I|reflexivity|exact I|reflexivity].
  - destruct (u_pc s) eqn:P; try discriminate. destruct (u_post s); [discriminate|]. inversion H; subst; clear H. fields. cbn [hold] in *. split; [lia|reflexivity].
  - unfold ustrand in H. destruct (u_pc s) as [|b| | | | | |] eqn:P; try discriminate; cbn [hold] in I.
    + destruct (u_flag s) eqn:F; destruct b; cbn [negb andb] in H; inversion H; subst; clear H; fields; cbn [hold] in *; rewrite ?F; cbn [b2n] in *; (split; [lia|reflexivity]).
    + destruct (cc && negb (u_win s)); [inversion H; subst; clear H; fields; cbn [hold]; split; [lia|reflexivity]|].
      destruct (u_buf s) as [|m q] eqn:B; inversion H; subst; clear H; fields; cbn [hold]; [rewrite B; split; [lia|reflexivity]|].
      assert (FL : u_fly s = []) by (destruct (u_fly s); [reflexivity|cbn [length] in I; destruct (u_flag s); cbn [b2n] in I; lia]). rewrite FL in *. cbn [app length replay] in *. rewrite N.eqb_refl. split; [lia|reflexivity].
    + inversion H; subst; clear H. fields. cbn [hold]. pose proof (toks_set1 (u_tm s)). split; [lia|reflexivity].
    + inversion H; subst; clear H. fields. cbn [hold]. pose proof (toks_set2 (u_tm s)). split; [lia|reflexivity].
    + inversion H; subst; clear H. fields. cbn [hold b2n]. split; [destruct (u_flag s); cbn [b2n] in I; lia|reflexivity].
    + inversion H; subst; clear H. fields. destruct (u_buf s); cbn [hold]; split; [lia|reflexivity|lia|reflexivity].
    + inversion H; subst; clear H. fields. cbn [hold b2n]. split; [destruct (u_flag s); cbn [b2n] in I; lia|reflexivity].
  - destruct (u_pc s) eqn:P; try discriminate. destruct (nth_error (u_fly s) k) as [m|] eqn:K; [|discriminate]. pose proof (remove_at_len _ _ _ K) as L.
    assert (FL : u_fly s = [m] /\ remove_at k (u_fly s) = []). { destruct (u_fly s) as [|x [|y t]]; [destruct k; discriminate| |cbn [length] in I; destruct (u_flag s); cbn [b2n] in I; lia]. cbn [length] in L. destruct k as [|k]; cbn [nth_error] in K; [inversion K; split; reflexivity|destruct k; discriminate]. }
    destruct FL as (FL & RE). rewrite RE, FL in *. cbn [length] in *.
    destruct r; [| |destruct (u_open s); [discriminate|]]; inversion H; subst; clear H; fields; cbn [hold length replay]; rewrite N.eqb_refl; (split; [cbn [hold] in I; lia|reflexivity]).
  - destruct (u_res s); [discriminate|]. inversion H; subst; clear H. destruct (u_buf s) eqn:B; fields; rewrite ?B; (split; [exact I|reflexivity]).
  - inversion H; subst; clear H. fields. split; [exact I|reflexivity].
  - destruct (ft_expire (u_tm s)) as [f|] eqn:E; [|discriminate]. inversion H; subst; clear H. fields. apply toks_expire in E. split; [lia|reflexivity].
  - destruct (ft_begin (u_tm s) k (negb (u_win s))) as [[f c]|] eqn:E; [|discriminate]. inversion H; subst; clear H. apply toks_begin in E. rewrite negb_involutive in E.
    destruct (c && u_win s); fields; (split; [destruct (u_flag s); cbn [b2n] in *; lia|reflexivity]).
  - destruct (ft_step (u_tm s) j) as [f|] eqn:E; [|discriminate]. inversion H; subst; clear H. fields. apply toks_step in E. split; [lia|reflexivity].
  - destruct (u_open s); [|discriminate]. inversion H; subst; clear H. fields. pose proof (toks_stop (u_tm s)). split; [lia|reflexivity].
  - destruct (u_open s); [discriminate|]. inversion H; subst; clear H. fields. pose proof (toks_stop (u_tm s)). split; [lia|reflexivity].
  - destruct (u_open s); [discriminate|]. destruct (u_pc s) eqn:P; try discriminate. destruct (u_fly s) eqn:F; [|discriminate]. destruct (u_post s); [|discriminate]. destruct (u_res s); [|discriminate]. destruct (ft_quiet (u_tm s)); [|discriminate]. inversion H; subst; clear H. fields. split; [exact I|reflexivity].
Qed.
Lemma uinv_steps cc l : forall s s' tr, uinv s -> usteps cc s l = Some (s', tr) -> uinv s' /\ replay (u_buf s) (cur s) tr = Some (u_buf s', cur s').
Proof.
  induction l as [|a l IH]; intros s s' tr I H; cbn [usteps] in H; [inversion H; subst; split; [exact I|reflexivity]|]. destruct (ustep cc s a) as [[s1 t1]|] eqn:E; [|discriminate]. destruct (usteps cc s1 l) as [[s2 t2]|] eqn:E2; [|discriminate]. inversion H; subst.
  destruct (uinv_step _ _ _ _ _ I E) as (I1 & R1). destruct (IH _ _ _ I1 E2) as (I2 & R2). split; [exact I2|]. rewrite replay_app, R1. exact R2.
Qed.
Lemma uinv0 : uinv u0.
Proof. unfold uinv, utoks. cbn. lia. Qed.
(** In every execution, whatever fails, closes or congests: messages are sent one at a time, in the order of the send buffer,
    each at most once, and what has not been sent or is not being sent is still in the buffer. *)
Theorem C57_one_in_order cc l s tr : usteps cc u0 l = Some (s, tr) ->
  exists in_progress, replay [] None tr = Some (u_buf s, in_progress) /\ u_fly s = match in_progress with Some m => [m] | None => [] end.
Proof.
  intros H. destruct (uinv_steps _ _ _ _ _ uinv0 H) as (I & R). exists (cur s). split; [exact R|]. unfold uinv, utoks in I. unfold cur. destruct (u_fly s) as [|x [|y t]]; [reflexivity|reflexivity|]. cbn [length] in I. destruct (u_flag s); cbn [b2n] in I; lia.
Qed.
Print Assumptions C57_one_in_order.
Example C57_one_in_order_example : exists s tr, usteps false u0 [AEnq false 1; AStart; AReady; AEnq true 7; AReady; AReady; ALoad; ALoad; ARun; AStrand; AStrand; ADone 0 RErr; AStrand; AStrand; ADone 0 ROk; AEnq false 3; AStrand] = Some (s, tr) /\
  tr = [EvQueued false 1; EvQueued true 7; EvStart 7; EvDone 7 RErr; EvStart 1; EvDone 1 ROk; EvQueued false 3] /\ u_buf s = [3].
Proof. do 2 eexists. split; [vm_compute; reflexivity|]. split; reflexivity. Qed.

(** ** sending goes on *)
(** what may happen without the application doing anything; all sends completing with [r] *)
Definition sys (r : ures) (a : uact) : Prop := match a with AEnq _ _ | AClose | AStart | AWin _ => False | ADone _ r' => r' = r | _ => True end.
Definition goes_on (cc : bool) (r : ures) (m : N) (s : ust) : Prop := exists l2 s2 tr2, Forall (sys r) l2 /\ usteps cc s l2 = Some (s2, tr2) /\ In (EvStart m) tr2.
(** Whenever an open socket has a message to send and there is no congestion, it will be sent, whether the sends in progress
    succeed or not. *)
Definition C57_statement : Prop := forall cc l s tr r m q, usteps cc u0 l = Some (s, tr) -> u_open s = true -> u_win s = true -> u_buf s = m :: q -> r <> RFatal -> goes_on cc r m s.

(** False, in two ways. *)
Definition udead (s : ust) : Prop := u_flag s = true /\ u_fly s = [] /\ f_on (u_tm s) = false /\ hold (u_pc s) = O /\ u_pc s <> UEmp.
Lemma udead_step cc s a s' tr : udead s -> ustep cc s a = Some (s', tr) -> udead s' /\ forall m, ~ In (EvStart m) tr.
Proof.
  intros (F & L & O & P & E) H. assert (PC : u_pc s = UIdle \/ u_pc s = UDo false) by (destruct (u_pc s) as [|[|]| | | | | |]; cbn in P; try discriminate; try congruence; auto).
  destruct a; cbn [ustep] in H.
  - inversion H; subst. split; [repeat split; assumption|]. intros x [X|[]]. discriminate.
  - destruct (u_chk s); [discriminate|]. inversion H; subst. split; [|auto]. destruct (u_ready s); repeat split; assumption.
  - destruct (u_ld s); [discriminate|]. inversion H; subst. rewrite F. split; [repeat split; assumption|auto].
  - destruct (u_pc s) eqn:PP; try discriminate. destruct (u_post s); [discriminate|]. inversion H; subst. split; [repeat split; try assumption; discriminate|auto].
  - unfold ustrand in H. destruct PC as [PC|PC]; rewrite PC in H; [discriminate|]. rewrite F in H. cbn in H. inversion H; subst. split; [repeat split; try assumption; discriminate|auto].
  - rewrite L in H. destruct (u_pc s); try discriminate. destruct k; discriminate.
  - destruct (u_res s); [discriminate|]. inversion H; subst. split; [|auto]. destruct (u_buf s); repeat split; assumption.
  - inversion H; subst. split; [repeat split; assumption|auto].
  - unfold ft_expire in H. destruct (f_wait (u_tm s)); [|discriminate]. inversion H; subst. split; [repeat split; assumption|auto].
  - unfold ft_begin in H. destruct (nth_error (f_q (u_tm s)) k) as [[w ok]|]; [|discriminate]. rewrite O in H. cbn [andb] in H. inversion H; subst. split; [repeat split; assumption|auto].
  - unfold ft_step in H. destruct (nth_error (f_run (u_tm s)) j) as [[h w]|]; [|discriminate]. rewrite O in H. split; [|destruct h; inversion H; auto]. destruct h; inversion H; subst; repeat split; assumption.
  - destruct (u_open s); [|discriminate]. unfold ft_stop in H. rewrite O in H. inversion H; subst. split; [repeat split; assumption|auto].
  - destruct (u_open s); [discriminate|]. unfold ft_stop in H. rewrite O in H. inversion H; subst. split; [repeat split; assumption|auto].
  - destruct (u_open s); [discriminate|]. destruct (u_pc s) eqn:PP; try discriminate. destruct (u_fly s) eqn:FL; [|discriminate]. destruct (u_post s); [|discriminate]. destruct (u_res s); [|discriminate]. destruct (ft_quiet (u_tm s)); [|discriminate]. inversion H; subst; clear H. split; [|auto]. repeat split; try assumption; try discriminate.
Qed.
Lemma udead_forever cc l : forall s s' tr, udead s -> usteps cc s l = Some (s', tr) -> forall m, ~ In (EvStart m) tr.
Proof.
  induction l as [|a l IH]; intros s s' tr D H m; cbn [usteps] in H; [inversion H; subst; auto|]. destruct (ustep cc s a) as [[s1 t1]|] eqn:E; [|discriminate]. destruct (usteps cc s1 l) as [[s2 t2]|] eqn:E2; [|discriminate]. inversion H; subst. destruct (udead_step _ _ _ _ _ D E) as (D1 & N1). intros X. apply in_app_or in X as [X|X]; [exact (N1 m X)|exact (IH _ _ _ D1 E2 m X)].
Qed.

(** the timer is not started while one of its handlers runs, and its handlers do not run while it is being started (which a
    single service thread guarantees) *)
Definition utimer_calm (s : ust) (a : uact) : bool :=
  match a with
  | AStrand => match u_pc s, f_run (u_tm s) with USet1, _ :: _ => false | _, _ => true end
  | ABegin _ | AStep _ => match u_pc s with USet2 => false | _ => true end
  | _ => true
  end.
(** the socket is not closed while it waits for the congestion to end *)
Definition uclose_calm (s : ust) (a : uact) : bool :=
  match a with
  | AClose | AStopT => match u_pc s, toks (u_tm s) with USet2, _ | _, _ :: _ => false | _, [] => true end
  | _ => true
  end.
Fixpoint ualong (p : ust -> uact -> bool) (cc : bool) (s : ust) (l : list uact) : bool :=
  match l with
  | [] => true
  | a :: l' => p s a && match ustep cc s a with Some (s1, _) => ualong p cc s1 l' | None => true end
  end.

(** sending message 1, then congestion while 2 waits *)
Definition congested : list uact := [AStart; AEnq false 1; AReady; ALoad; ARun; AStrand; AStrand; AEnq false 2; AWin false; ADone 0 ROk; AStrand; AStrand; AStrand; AStrand].
(** TIMER_CC is started by the strand while the handler of its last expiration, which has resumed sending, is about to mark it as
    cancelled: sending never resumes *)
Theorem C57_resume_refuted : exists l s tr, usteps true u0 l = Some (s, tr) /\ ualong uclose_calm true u0 l = true /\ u_open s = true /\ u_win s = true /\ u_buf s = [3] /\
  forall l2 s2 tr2 m, usteps true s l2 = Some (s2, tr2) -> ~ In (EvStart m) tr2.
Proof.
  exists (congested ++ [AExpire; AWin true; ABegin 0; ARes; AReady; AReady; ALoad; ARun; AStrand; AStrand; AEnq false 3; AWin false; ADone 0 ROk; AStrand; AStrand; AStrand; AStep 0; AStep 0; AStrand; AWin true]).
  do 2 eexists. split; [vm_compute; reflexivity|]. split; [vm_compute; reflexivity|]. split; [reflexivity|]. split; [reflexivity|]. split; [reflexivity|].
  intros l2 s2 tr2 m H. eapply udead_forever; [|exact H]. unfold udead. cbn. repeat split. discriminate.
Qed.
Print Assumptions C57_resume_refuted.
(** The socket is closed during congestion and started again: the flag stays set *)
Theorem C57_restart_refuted : exists l s tr, usteps true u0 l = Some (s, tr) /\ ualong utimer_calm true u0 l = true /\ u_open s = true /\ u_win s = true /\ u_buf s = [2] /\
  forall l2 s2 tr2 m, usteps true s l2 = Some (s2, tr2) -> ~ In (EvStart m) tr2.
Proof.
  exists (congested ++ [AClose; ABegin 0; AStep 0; AStep 0; AStart]).
  do 2 eexists. split; [vm_compute; reflexivity|]. split; [vm_compute; reflexivity|]. split; [reflexivity|]. split; [reflexivity|]. split; [reflexivity|].
  intros l2 s2 tr2 m H. eapply udead_forever; [|exact H]. unfold udead. cbn. repeat split. discriminate.
Qed.
Print Assumptions C57_restart_refuted.
Theorem C57_statement_refuted : ~ C57_statement.
Proof. intros H. destruct C57_resume_refuted as (l & s & tr & R & _ & O & W & B & D). destruct (H true l s tr ROk 3 [] R O W B ltac:(discriminate)) as (l2 & s2 & tr2 & _ & R2 & X). exact (D _ _ _ _ R2 X). Qed.
Print Assumptions C57_statement_refuted.

(** ** the part that holds *)
Record tgood (f : ft) : Prop := {
  tg_ok : Forall (fun x => snd x = true) (f_q f);
  tg_on : toks f <> [] -> f_on f = true;
  tg_run : toks f <> [] -> Forall (fun x => fst x = HAgain) (f_run f)
}.
Lemma tg_new : tgood ft_new.
Proof. split; [constructor|cbn; congruence|cbn; congruence]. Qed.
Lemma tg_set1 f : tgood f -> toks f = [] -> f_run f = [] -> tgood (ft_set1 f) /\ toks (ft_set1 f) = [] /\ f_on (ft_set1 f) = true /\ f_run (ft_set1 f) = [].
Proof.
  intros [OK _ _] TN FR. destruct (toks_nil _ TN) as (W & Q & _). specialize (Q OK).
  assert (T1 : toks (ft_set1 f) = []) by (apply quiet_toks; unfold ft_set1, abort; cbn [f_wait f_q f_run]; rewrite ?W, ?FR; [reflexivity|exact Q|constructor]).
  split; [split; rewrite ?T1; try congruence|]; [unfold ft_set1, abort; cbn [f_q]; rewrite W, Q; constructor|]. split; [exact T1|]. split; [reflexivity|exact FR].
Qed.
Lemma tg_set2 f : tgood f -> toks f = [] -> f_on f = true -> f_run f = [] -> tgood (ft_set2 f) /\ length (toks (ft_set2 f)) = 1%nat /\ f_wait (ft_set2 f) <> None.
Proof.
  intros [OK _ _] TN ON FR. destruct (toks_nil _ TN) as (W & Q & _). specialize (Q OK).
  split; [split; unfold ft_set2; cbn [f_on f_q f_run]; [exact OK|intros _; exact ON|rewrite FR; constructor]|]. split; [|unfold ft_set2; discriminate]. unfold toks, ft_set2. cbn [f_wait f_q f_run]. rewrite Q, FR. reflexivity.
Qed.
Lemma tg_expire f g : tgood f -> ft_expire f = Some g -> tgood g /\ length (toks g) = length (toks f).
Proof.
  intros [OK ON RN] E. pose proof (toks_expire _ _ E) as TE. unfold ft_expire in E. destruct (f_wait f) as [w|] eqn:W; [|discriminate]. assert (NE : toks f <> []) by (unfold toks; rewrite W; discriminate). inversion E; subst g; clear E.
  split; [|exact TE]. split; cbn [f_on f_q f_run]; [apply Forall_app; split; [exact OK|repeat constructor]|intros _; apply ON; exact NE|intros _; apply RN; exact NE].
Qed.
Lemma tg_begin f k again g c : tgood f -> (length (toks f) <= 1)%nat -> ft_begin f k again = Some (g, c) -> tgood g /\ c = true /\ length (toks f) = 1%nat /\ length (toks g) = b2n again.
Proof.
  intros [OK ON RN] LE H. unfold ft_begin in H. destruct (nth_error (f_q f) k) as [[w ok]|] eqn:NK; [|discriminate].
  assert (OKT : ok = true) by (apply nth_error_In in NK; rewrite Forall_forall in OK; exact (OK _ NK)). subst ok.
  pose proof (Permutation_length (filter_remove_at snd k _ _ NK)) as P. rewrite app_length in P. cbn [snd length] in P.
  assert (NE : toks f <> []). { unfold toks. intros X. apply (f_equal (@length N)) in X. rewrite !app_length, !map_length in X. cbn [length] in X. lia. }
  rewrite (ON NE) in H. cbn [andb] in H. pose proof (RN NE) as RA.
  assert (LT : length (toks f) = 1%nat) by (destruct (toks f) as [|x [|y t]]; [congruence|reflexivity|cbn [length] in LE; lia]). pose proof LT as LT0. unfold toks in LT. rewrite !app_length, !map_length in LT.
  assert (W : f_wait f = None) by (destruct (f_wait f); [cbn [length] in LT; lia|reflexivity]).
  assert (RE : f_run f = []). { destruct (f_run f) as [|[h v] r] eqn:FR; [reflexivity|]. apply Forall_cons_iff in RA as (HA & _). cbn in HA. subst h. cbn [filter fst length] in LT. lia. }
  assert (QE : remove_at k (f_q f) = []). { pose proof (Forall_ra _ _ k OK) as FO. destruct (remove_at k (f_q f)) as [|[v o] q]; [reflexivity|]. apply Forall_cons_iff in FO as (HO & _). cbn in HO. subst o. cbn [filter snd length] in P. lia. }
  rewrite W, RE, QE in H. inversion H; subst; clear H. split; [|split; [reflexivity|split; [exact LT0|destruct again; reflexivity]]].
  destruct again; split; cbn; try congruence; repeat constructor.
Qed.
Lemma tg_step f j g : tgood f -> (length (toks f) <= 1)%nat -> ft_step f j = Some g -> tgood g /\ length (toks g) = length (toks f).
Proof.
  intros [OK ON RN] LE E. unfold ft_step in E. destruct (nth_error (f_run f) j) as [[h w]|] eqn:NJ; [|discriminate].
  pose proof (Permutation_length (filter_remove_at (fun x => match fst x with HAgain => true | _ => false end) j _ _ NJ)) as P. rewrite app_length in P. cbn [fst] in P.
  assert (CASE : h = HAgain \/ toks f = []). { destruct (toks f) eqn:T; [right; reflexivity|]. left. assert (NE : n :: l <> []) by discriminate. specialize (RN NE). apply nth_error_In in NJ. rewrite Forall_forall in RN. exact (RN _ NJ). }
  destruct CASE as [->|TN].
  - assert (NE : toks f <> []). { unfold toks. intros X. apply (f_equal (@length N)) in X. rewrite !app_length, !map_length in X. cbn [length] in *. lia. }
    rewrite (ON NE) in E. pose proof (RN NE) as RA. assert (LT : length (toks f) = 1%nat) by (destruct (toks f) as [|x [|y t]]; [congruence|reflexivity|cbn [length] in LE; lia]). pose proof LT as LT0. unfold toks in LT. rewrite !app_length, !map_length in LT. cbn [length] in P.
    assert (W : f_wait f = None) by (destruct (f_wait f); [cbn [length] in LT; lia|reflexivity]).
    assert (QE : f_q f = []). { destruct (f_q f) as [|[v o] q] eqn:FQ; [reflexivity|]. apply Forall_cons_iff in OK as (HO & _). cbn in HO. subst o. cbn [filter snd length] in LT. lia. }
    assert (RE : remove_at j (f_run f) = []). { pose proof (Forall_ra _ _ j RA) as FO. destruct (remove_at j (f_run f)) as [|[h v] r]; [reflexivity|]. apply Forall_cons_iff in FO as (HO & _). cbn in HO. subst h. cbn [filter fst length] in P. lia. }
    rewrite W, QE, RE in E. inversion E; subst g; clear E. unfold ft_set2, ft_set1, abort. cbn [f_wait f_q f_run f_no f_on]. rewrite LT0. split; [|reflexivity]. split; cbn; intros; try reflexivity; constructor.
  - destruct (toks_nil _ TN) as (W & Q & NA). specialize (Q OK). assert (HA : h <> HAgain) by (apply nth_error_In in NJ; rewrite Forall_forall in NA; exact (NA _ NJ)). pose proof (Forall_ra _ _ j NA) as NR.
    assert (TF : toks g = [] /\ f_q g = []). { destruct h; [congruence| |]; inversion E; subst g; (split; [|exact Q]); apply quiet_toks; cbn [f_wait f_q f_run]; try assumption. destruct (same_seq w (f_no f)); [constructor; [discriminate|exact NR]|exact NR]. }
    destruct TF as (TF & FQ). rewrite TF, TN. split; [|reflexivity]. split; [rewrite FQ; constructor|congruence|congruence].
Qed.
Lemma tg_stop f : tgood f -> toks f = [] -> tgood (ft_stop f) /\ toks (ft_stop f) = [].
Proof.
  intros G TN. destruct (toks_nil _ TN) as (W & Q & NA). specialize (Q (tg_ok _ G)). unfold ft_stop. destruct (f_on f); [|split; assumption].
  assert (T : toks (mk_ft false (f_no f) None (abort f) (f_run f)) = []) by (apply quiet_toks; unfold abort; cbn [f_wait f_q f_run]; rewrite ?W; [reflexivity|exact Q|exact NA]).
  split; [|exact T]. split; [unfold abort; cbn [f_q]; rewrite W, Q; constructor|congruence|congruence].
Qed.

Record ucinv (s : ust) : Prop := {
  uc_one : utoks s = b2n (u_flag s);
  uc_tm : tgood (u_tm s);
  uc_set2 : u_pc s = USet2 -> f_on (u_tm s) = true /\ f_run (u_tm s) = [];
  uc_ready : u_open s = true -> u_ready s = true;
  uc_err : u_open s = true -> u_pc s <> UErr;
  uc_wake : u_open s = true -> u_buf s <> [] -> u_flag s = true \/ u_pc s <> UIdle \/ (0 < u_chk s + u_ld s + u_post s + u_res s)%nat
}.
Lemma b2n_le b : (b2n b <= 1)%nat.
Proof. destruct b; cbn; lia. Qed.
Lemma one_true n b : n = b2n b -> (0 < n)%nat -> b = true.
Proof. destruct b; [reflexivity|cbn; lia]. Qed.
Lemma ucinv_step cc s a s' tr : ucinv s -> utimer_calm s a = true -> uclose_calm s a = true -> ustep cc s a = Some (s', tr) -> ucinv s'.
Proof.
  intros [ONE TM S2 RDY ER WK] C1 C2 H. unfold utoks in ONE. pose proof (b2n_le (u_flag s)) as FL. destruct a; cbn [ustep] in H; cbn [utimer_calm] in C1; cbn [uclose_calm] in C2.
  - inversion H; subst; clear H. split; unfold utoks; fields; try assumption. intros; right; right; lia.
  - destruct (u_chk s) as [|n] eqn:CK; [discriminate|]. inversion H; subst; clear H. destruct (u_ready s) eqn:RR; split; unfold utoks; fields; try assumption; try (intros; try congruence; reflexivity).
    + intros; right; right; lia.
    + intros O. specialize (RDY O). discriminate.
    + intros O. specialize (RDY O). discriminate.
  - destruct (u_ld s) as [|n] eqn:CK; [discriminate|]. inversion H; subst; clear H. destruct (u_flag s) eqn:FF; split; unfold utoks; fields; rewrite ?FF; try assumption.
    + intros; left; reflexivity.
    + intros; right; right; lia.
  - destruct (u_pc s) eqn:P; try discriminate. destruct (u_post s) eqn:PO; [discriminate|]. inversion H; subst; clear H. cbn [hold] in *. split; unfold utoks; fields; cbn [hold]; try assumption; try discriminate; intros. right; left; discriminate.
  - unfold ustrand in H. destruct (u_pc s) as [|b| | | | | |] eqn:P; try discriminate; cbn [hold] in ONE.
    + destruct (u_flag s) eqn:F; destruct b; cbn [negb andb] in H; inversion H; subst; clear H; cbn [hold b2n] in *; split; unfold utoks; fields; cbn [hold]; rewrite ?F; cbn [b2n]; try assumption; try discriminate; try lia; intros; try (left; reflexivity); try (right; left; discriminate).
    + destruct (cc && negb (u_win s)); [inversion H; subst; clear H; split; unfold utoks; fields; cbn [hold]; try assumption; try discriminate; intros; right; left; discriminate|].
      destruct (u_buf s) as [|m q] eqn:B; inversion H; subst; clear H; split; unfold utoks; fields; cbn [hold]; try assumption; try discriminate; try (rewrite ?app_length; cbn [length]; lia); intros; [right; left; discriminate|].
      left. eapply one_true; [exact ONE|lia].
    + destruct (f_run (u_tm s)) as [|x r] eqn:FR; [|discriminate]. assert (TN : toks (u_tm s) = []) by (apply toks_len_nil; lia). destruct (tg_set1 _ TM TN FR) as (G & T1 & O1 & R1). inversion H; subst; clear H.
      split; unfold utoks; fields; cbn [hold]; try assumption; try discriminate; [rewrite T1; rewrite TN in ONE; exact ONE|intros _; split; assumption|intros; right; left; discriminate].
    + assert (TN : toks (u_tm s) = []) by (apply toks_len_nil; lia). destruct (S2 eq_refl) as (O & R). destruct (tg_set2 _ TM TN O R) as (G & T1 & _). inversion H; subst; clear H.
      split; unfold utoks; fields; cbn [hold]; try assumption; try discriminate; [rewrite T1; rewrite TN in ONE; cbn [length] in ONE; lia|]. intros. left. eapply one_true; [exact ONE|lia].
    + inversion H; subst; clear H. split; unfold utoks; fields; cbn [hold b2n]; try assumption; try discriminate; [lia|]. intros; right; left; discriminate.
    + inversion H; subst; clear H. destruct (u_buf s) as [|m q] eqn:B; split; unfold utoks; fields; rewrite ?B; cbn [hold]; try assumption; try discriminate; try congruence; intros; right; left; discriminate.
    + inversion H; subst; clear H. split; unfold utoks; fields; cbn [hold b2n]; try assumption; try discriminate; [lia|]. intros O _. exfalso. exact (ER O eq_refl).
  - destruct (u_pc s) eqn:P; try discriminate. destruct (nth_error (u_fly s) k) as [m|] eqn:K; [|discriminate]. pose proof (remove_at_len _ _ _ K) as L. cbn [hold] in ONE.
    destruct r; [| |destruct (u_open s) eqn:O; [discriminate|]]; inversion H; subst; clear H; (split; unfold utoks; fields; cbn [hold]; try assumption; try discriminate; try congruence; try lia; intros; right; left; discriminate).
  - destruct (u_res s) eqn:RS; [discriminate|]. inversion H; subst; clear H. destruct (u_buf s) as [|m q] eqn:B; split; unfold utoks; fields; rewrite ?B; try assumption; try congruence. intros; right; right; lia.
  - inversion H; subst; clear H. split; unfold utoks; fields; assumption.
  - destruct (ft_expire (u_tm s)) as [f|] eqn:E; [|discriminate]. inversion H; subst; clear H. pose proof (tg_expire _ _ TM E) as (G & L). unfold ft_expire in E. destruct (f_wait (u_tm s)); [|discriminate]. inversion E; subst f; clear E.
    split; unfold utoks; fields; try assumption; rewrite L; exact ONE.
  - destruct (ft_begin (u_tm s) k (negb (u_win s))) as [[f c]|] eqn:E; [|discriminate]. destruct (tg_begin _ _ _ _ _ TM ltac:(lia) E) as (G & -> & L1 & L2). cbn [andb] in H. assert (NS : u_pc s <> USet2) by (destruct (u_pc s); congruence). assert (FF : u_flag s = true) by (eapply one_true; [exact ONE|lia]). rewrite FF in ONE. cbn [b2n] in ONE.
    destruct (u_win s); cbn [negb b2n] in L2; inversion H; subst; clear H; split; unfold utoks; fields; rewrite ?FF; cbn [b2n]; try assumption; try lia; try (intros X; contradiction); intros; first [left; reflexivity|right; right; lia].
  - destruct (ft_step (u_tm s) j) as [f|] eqn:E; [|discriminate]. destruct (tg_step _ _ _ TM ltac:(lia) E) as (G & L). assert (NS : u_pc s <> USet2) by (destruct (u_pc s); congruence). inversion H; subst; clear H. split; unfold utoks; fields; try assumption; [rewrite L; exact ONE|intros X; contradiction].
  - destruct (u_open s) eqn:O; [|discriminate]. assert (NS : u_pc s <> USet2 /\ toks (u_tm s) = []) by (destruct (u_pc s), (toks (u_tm s)); split; congruence). destruct NS as (NS & TN). destruct (tg_stop _ TM TN) as (G & T). inversion H; subst; clear H. split; unfold utoks; fields; try assumption; try discriminate; [rewrite T; rewrite TN in ONE; exact ONE|intros X; contradiction].
  - destruct (u_open s) eqn:O; [discriminate|]. assert (NS : u_pc s <> USet2 /\ toks (u_tm s) = []) by (destruct (u_pc s), (toks (u_tm s)); split; congruence). destruct NS as (NS & TN). destruct (tg_stop _ TM TN) as (G & T). inversion H; subst; clear H. split; unfold utoks; fields; rewrite ?O; try assumption; try discriminate; [rewrite T; rewrite TN in ONE; exact ONE|intros X; contradiction].
  - destruct (u_open s); [discriminate|]. destruct (u_pc s) eqn:P; try discriminate. destruct (u_fly s) eqn:F; [|discriminate]. destruct (u_post s); [|discriminate]. destruct (u_res s); [|discriminate]. destruct (ft_quiet (u_tm s)); [|discriminate]. inversion H; subst; clear H.
    split; unfold utoks; fields; try assumption; try reflexivity; try discriminate. intros; right; right; lia.
Qed.
Lemma ucinv_steps cc l : forall s s' tr, ucinv s -> ualong utimer_calm cc s l = true -> ualong uclose_calm cc s l = true -> usteps cc s l = Some (s', tr) -> ucinv s'.
Proof.
  induction l as [|a l IH]; intros s s' tr I C1 C2 H; cbn [usteps ualong] in *; [inversion H; subst; exact I|]. apply andb_prop in C1 as (C1 & D1). apply andb_prop in C2 as (C2 & D2). destruct (ustep cc s a) as [[s1 t1]|] eqn:E; [|discriminate]. destruct (usteps cc s1 l) as [[s2 t2]|] eqn:E2; [|discriminate]. inversion H; subst. exact (IH _ _ _ (ucinv_step _ _ _ _ _ I C1 C2 E) D1 D2 E2).
Qed.
Lemma ucinv0 : ucinv u0.
Proof. split; try discriminate; try reflexivity; exact tg_new. Qed.

Section GoesOn.
Variables (cc : bool) (r : ures) (m : N) (q : list N).
Hypothesis R : r <> RFatal.
Definition winok (s : ust) : Prop := u_win s = true \/ (cc = false /\ u_tm s = ft_new /\ u_pc s <> USet1 /\ u_pc s <> USet2).
Lemma win_keep s s1 : winok s -> u_win s1 = u_win s -> u_tm s1 = u_tm s -> (u_pc s1 <> USet1 /\ u_pc s1 <> USet2) -> winok s1.
Proof. intros [W|(C & T & _)] E1 E2 P; [left; congruence|right; split; [exact C|split; [congruence|exact P]]]. Qed.
Record able (s : ust) : Prop := { ab_inv : ucinv s; ab_open : u_open s = true; ab_win : winok s; ab_buf : u_buf s = m :: q }.
Ltac wk A := eapply win_keep; [exact (ab_win _ A)|try reflexivity|try reflexivity|split; (discriminate || (fields; congruence))].
Lemma go_step s a s1 t1 : sys r a -> ustep cc s a = Some (s1, t1) -> goes_on cc r m s1 -> goes_on cc r m s.
Proof. intros S E (l2 & s2 & tr2 & F & H & X). exists (a :: l2), s2, (t1 ++ tr2). cbn [usteps]. rewrite E, H. split; [constructor; assumption|]. split; [reflexivity|]. apply in_or_app. right. exact X. Qed.
Lemma able_step s a s1 t1 : able s -> utimer_calm s a = true -> uclose_calm s a = true -> ustep cc s a = Some (s1, t1) -> u_open s1 = true -> winok s1 -> u_buf s1 = m :: q -> able s1.
Proof. intros A C1 C2 E O W B. split; try assumption. exact (ucinv_step _ _ _ _ _ (ab_inv _ A) C1 C2 E). Qed.
Lemma go_take s : able s -> u_pc s = UTake -> goes_on cc r m s.
Proof.
  intros A P. exists [AStrand]. do 2 eexists. split; [repeat constructor|]. split; [cbn [usteps ustep]; unfold ustrand; rewrite P, (ab_buf _ A); destruct (ab_win _ A) as [W|(W & _)]; rewrite W; [rewrite andb_false_r|]; reflexivity|]. left. reflexivity.
Qed.
Lemma go_do s b : able s -> u_pc s = UDo b -> (b = true \/ u_flag s = false) -> goes_on cc r m s.
Proof.
  intros A P C. assert (E : ustep cc s AStrand = Some (set_pc (if b then s else set_flag s true) UTake, [])). { cbn [ustep]. unfold ustrand. rewrite P. destruct C as [->|C]; [reflexivity|rewrite C, andb_false_r; reflexivity]. }
  eapply go_step; [|exact E|]; [exact I|]. apply go_take; [|reflexivity]. eapply able_step; [exact A| | |exact E| | |]; [cbn [utimer_calm]; rewrite P; reflexivity|reflexivity|destruct b; apply A|wk A; destruct b; reflexivity|destruct b; apply A].
Qed.
Lemma go_fly s x l : able s -> u_pc s = UIdle -> u_fly s = x :: l -> goes_on cc r m s.
Proof.
  intros A P F. assert (E : ustep cc s (ADone 0 r) = Some (set_pc (set_fly s (remove_at 0 (u_fly s))) (UDo true), [EvDone x r])). { cbn [ustep]. rewrite P, F. cbn [nth_error]. destruct r; [reflexivity|reflexivity|congruence]. }
  eapply go_step; [|exact E|]; [reflexivity|]. eapply go_do; [|reflexivity|left; reflexivity]. eapply able_step; [exact A| | |exact E| | |]; try reflexivity; try wk A; apply A.
Qed.
Lemma go_post s n : able s -> u_pc s = UIdle -> u_flag s = false -> u_post s = S n -> goes_on cc r m s.
Proof.
  intros A P F O. assert (E : ustep cc s ARun = Some (set_pc (set_post s n) (UDo false), [])) by (cbn [ustep]; rewrite P, O; reflexivity).
  eapply go_step; [|exact E|]; [exact I|]. eapply go_do; [|reflexivity|right; exact F]. eapply able_step; [exact A| | |exact E| | |]; try reflexivity; try wk A; apply A.
Qed.
Lemma go_ld s n : able s -> u_pc s = UIdle -> u_flag s = false -> u_ld s = S n -> goes_on cc r m s.
Proof.
  intros A P F O. assert (E : ustep cc s ALoad = Some (set_post (set_ld s n) (S (u_post s)), [])) by (cbn [ustep]; rewrite O, F; reflexivity).
  eapply go_step; [|exact E|]; [exact I|]. eapply go_post; [|exact P|exact F|reflexivity]. eapply able_step; [exact A| | |exact E| | |]; try reflexivity; try wk A; apply A.
Qed.
Lemma go_chk s n : able s -> u_pc s = UIdle -> u_flag s = false -> u_chk s = S n -> goes_on cc r m s.
Proof.
  intros A P F O. assert (E : ustep cc s AReady = Some (set_ld (set_chk s n) (S (u_ld s)), [])) by (cbn [ustep]; rewrite O, (uc_ready _ (ab_inv _ A) (ab_open _ A)); reflexivity).
  eapply go_step; [|exact E|]; [exact I|]. eapply go_ld; [|exact P|exact F|reflexivity]. eapply able_step; [exact A| | |exact E| | |]; try reflexivity; try wk A; apply A.
Qed.
Lemma go_res s n : able s -> u_pc s = UIdle -> u_flag s = false -> u_res s = S n -> goes_on cc r m s.
Proof.
  intros A P F O. assert (E : ustep cc s ARes = Some (set_chk (set_res s n) (S (u_chk s)), [])) by (cbn [ustep]; rewrite O, (ab_buf _ A); reflexivity).
  eapply go_step; [|exact E|]; [exact I|]. eapply go_chk; [|exact P|exact F|reflexivity]. eapply able_step; [exact A| | |exact E| | |]; try reflexivity; try wk A; apply A.
Qed.
Lemma go_q s : able s -> u_pc s = UIdle -> f_q (u_tm s) <> [] -> goes_on cc r m s.
Proof.
  intros A P Q. destruct (ab_win _ A) as [WN|(_ & T & _)]; [|rewrite T in Q; cbn in Q; congruence]. destruct (f_q (u_tm s)) as [|[w ok] t] eqn:FQ; [congruence|].
  assert (EB : exists f c, ft_begin (u_tm s) 0 (negb (u_win s)) = Some (f, c)) by (unfold ft_begin; rewrite FQ; cbn [nth_error]; destruct (f_on (u_tm s) && ok); do 2 eexists; reflexivity). destruct EB as (f & c & EB).
  pose proof (uc_one _ (ab_inv _ A)) as ONE. unfold utoks in ONE. pose proof (b2n_le (u_flag s)). destruct (tg_begin _ _ _ _ _ (uc_tm _ (ab_inv _ A)) ltac:(lia) EB) as (_ & -> & _ & _).
  assert (E : ustep cc s (ABegin 0) = Some (set_res (set_flag (set_tm s f) false) (S (u_res s)), [])) by (cbn [ustep]; rewrite EB, WN; reflexivity).
  eapply go_step; [|exact E|]; [exact I|]. eapply go_res; [|exact P|reflexivity|reflexivity]. eapply able_step; [exact A| | |exact E| | |]; try reflexivity; try (left; exact WN); try apply A. cbn [utimer_calm]. rewrite P. reflexivity.
Qed.
Lemma go_wait s : able s -> u_pc s = UIdle -> f_wait (u_tm s) <> None -> goes_on cc r m s.
Proof.
  intros A P W. destruct (ab_win _ A) as [WN|(_ & T & _)]; [|rewrite T in W; cbn in W; congruence]. destruct (f_wait (u_tm s)) as [w|] eqn:FW; [|congruence]. assert (EX : exists f, ft_expire (u_tm s) = Some f /\ f_q f <> []) by (unfold ft_expire; rewrite FW; eexists; split; [reflexivity|cbn; destruct (f_q (u_tm s)); discriminate]). destruct EX as (f & EX & NQ).
  assert (E : ustep cc s AExpire = Some (set_tm s f, [])) by (cbn [ustep]; rewrite EX; reflexivity).
  eapply go_step; [|exact E|]; [exact I|]. apply go_q; [|exact P|exact NQ]. eapply able_step; [exact A| | |exact E| | |]; try reflexivity; try (left; exact WN); apply A.
Qed.
Lemma go_idle s : able s -> u_pc s = UIdle -> goes_on cc r m s.
Proof.
  intros A P. pose proof (ab_inv _ A) as IV. destruct (u_fly s) as [|x l] eqn:F; [|eapply go_fly; eassumption]. destruct (u_flag s) eqn:FF.
  - destruct (f_wait (u_tm s)) eqn:W; [apply go_wait; [assumption|assumption|congruence]|]. destruct (f_q (u_tm s)) eqn:Q; [|apply go_q; [assumption|assumption|congruence]].
    pose proof (uc_one _ IV) as ONE. unfold utoks in ONE. rewrite F, P, FF in ONE. cbn [length hold b2n] in ONE. assert (NE : toks (u_tm s) <> []) by (intros X; rewrite X in ONE; discriminate).
    pose proof (tg_run _ (uc_tm _ IV) NE) as RA. pose proof (tg_on _ (uc_tm _ IV) NE) as ON. destruct (f_run (u_tm s)) as [|[h w] t] eqn:FR; [exfalso; apply NE; unfold toks; rewrite W, Q, FR; reflexivity|]. apply Forall_cons_iff in RA as (HA & _). cbn in HA. subst h. destruct (ab_win _ A) as [WN|(_ & T & _)]; [|rewrite T in FR; discriminate].
    assert (ES : exists f, ft_step (u_tm s) 0 = Some f /\ f_wait f <> None) by (unfold ft_step; rewrite FR; cbn [nth_error]; rewrite ON; eexists; split; [reflexivity|discriminate]). destruct ES as (f & ES & NW).
    assert (E : ustep cc s (AStep 0) = Some (set_tm s f, [])) by (cbn [ustep]; rewrite ES; reflexivity).
    eapply go_step; [|exact E|]; [exact I|]. apply go_wait; [|exact P|exact NW]. eapply able_step; [exact A| | |exact E| | |]; try reflexivity; try (left; exact WN); try apply A. cbn [utimer_calm]. rewrite P. reflexivity.
  - destruct (uc_wake _ IV (ab_open _ A) ltac:(rewrite (ab_buf _ A); discriminate)) as [X|[X|X]]; [congruence|congruence|].
    destruct (u_post s) eqn:E1; [|eapply go_post; eassumption]. destruct (u_ld s) eqn:E2; [|eapply go_ld; eassumption]. destruct (u_chk s) eqn:E3; [|eapply go_chk; eassumption]. destruct (u_res s) eqn:E4; [lia|eapply go_res; eassumption].
Qed.
Lemma go_dofalse s : able s -> u_pc s = UDo false -> goes_on cc r m s.
Proof.
  intros A P. destruct (u_flag s) eqn:F; [|eapply go_do; eauto]. assert (E : ustep cc s AStrand = Some (set_pc s UIdle, [])) by (cbn [ustep]; unfold ustrand; rewrite P, F; reflexivity).
  eapply go_step; [|exact E|]; [exact I|]. apply go_idle; [|reflexivity]. eapply able_step; [exact A| | |exact E| | |]; try reflexivity; try wk A; try apply A. cbn [utimer_calm]. rewrite P. reflexivity.
Qed.
Lemma go_emp s : able s -> u_pc s = UEmp -> goes_on cc r m s.
Proof.
  intros A P. assert (E : ustep cc s AStrand = Some (set_pc s (UDo false), [])) by (cbn [ustep]; unfold ustrand; rewrite P, (ab_buf _ A); reflexivity).
  eapply go_step; [|exact E|]; [exact I|]. apply go_dofalse; [|reflexivity]. eapply able_step; [exact A| | |exact E| | |]; try reflexivity; try wk A; try apply A. cbn [utimer_calm]. rewrite P. reflexivity.
Qed.
Lemma go_set2 s : able s -> u_pc s = USet2 -> goes_on cc r m s.
Proof.
  intros A P. destruct (ab_win _ A) as [WN|(_ & _ & _ & T)]; [|congruence]. assert (E : ustep cc s AStrand = Some (set_pc (set_tm s (ft_set2 (u_tm s))) UIdle, [])) by (cbn [ustep]; unfold ustrand; rewrite P; reflexivity).
  eapply go_step; [|exact E|]; [exact I|]. apply go_idle; [|reflexivity]. eapply able_step; [exact A| | |exact E| | |]; try reflexivity; try (left; exact WN); try apply A. cbn [utimer_calm]. rewrite P. reflexivity.
Qed.
Lemma go_set1 n : forall s, (weight (f_run (u_tm s)) <= n)%nat -> able s -> u_pc s = USet1 -> goes_on cc r m s.
Proof.
  unfold weight. induction n as [|n IH]; intros s L A P; (destruct (ab_win _ A) as [WN|(_ & _ & T & _)]; [|congruence]).
  - assert (FR : f_run (u_tm s) = []) by (destruct (f_run (u_tm s)); [reflexivity|cbn in L; lia]).
    assert (E : ustep cc s AStrand = Some (set_pc (set_tm s (ft_set1 (u_tm s))) USet2, [])) by (cbn [ustep]; unfold ustrand; rewrite P; reflexivity).
    eapply go_step; [|exact E|]; [exact I|]. apply go_set2; [|reflexivity]. eapply able_step; [exact A| | |exact E| | |]; try reflexivity; try (left; exact WN); try apply A. cbn [utimer_calm]. rewrite P, FR. reflexivity.
  - destruct (f_run (u_tm s)) as [|[h w] t] eqn:FR; [apply IH; try assumption; rewrite FR; cbn; lia|]. pose proof (uc_one _ (ab_inv _ A)) as ONE. unfold utoks in ONE. rewrite P in ONE. cbn [hold] in ONE. pose proof (b2n_le (u_flag s)).
    assert (TN : toks (u_tm s) = []) by (apply toks_len_nil; lia). destruct (toks_nil _ TN) as (_ & _ & NA). rewrite FR in NA. apply Forall_cons_iff in NA as (HA & _). unfold not_again in HA. cbn in HA.
    assert (X : exists f, ft_step (u_tm s) 0 = Some f /\ (weight (f_run f) <= n)%nat).
    { unfold ft_step. rewrite FR. cbn [nth_error]. change (remove_at 0 ((h, w) :: t)) with t. unfold weight. cbn [length filter fst] in L. destruct h; [congruence| |]; eexists; (split; [reflexivity|]); cbn [f_run]; [destruct (same_seq w (f_no (u_tm s))); cbn in *; lia|lia]. }
    destruct X as (f & X & LW). assert (E : ustep cc s (AStep 0) = Some (set_tm s f, [])) by (cbn [ustep]; rewrite X; reflexivity).
    eapply go_step; [|exact E|]; [exact I|]. apply IH; [exact LW| |exact P]. eapply able_step; [exact A| | |exact E| | |]; try reflexivity; try (left; exact WN); try apply A. cbn [utimer_calm]. rewrite P. reflexivity.
Qed.
Lemma go_all s : able s -> goes_on cc r m s.
Proof.
  intros A. destruct (u_pc s) as [|b| | | | | |] eqn:P.
  - apply go_idle; assumption.
  - destruct b; [eapply go_do; eauto|apply go_dofalse; assumption].
  - apply go_take; assumption.
  - eapply go_set1; [apply le_n|assumption|assumption].
  - apply go_set2; assumption.
  - assert (E : ustep cc s AStrand = Some (set_pc (set_flag s false) UEmp, [])) by (cbn [ustep]; unfold ustrand; rewrite P; reflexivity).
    eapply go_step; [|exact E|]; [exact I|]. apply go_emp; [|reflexivity]. eapply able_step; [exact A| | |exact E| | |]; try reflexivity; try wk A; try apply A. cbn [utimer_calm]. rewrite P. reflexivity.
  - apply go_emp; assumption.
  - exfalso. exact (uc_err _ (ab_inv _ A) (ab_open _ A) P).
Qed.
End GoesOn.

(** The statement holds as long as the timer is used by one thread at a time and the socket is not closed during congestion. *)
Theorem C57_goes_on_partial cc l s tr r m q : usteps cc u0 l = Some (s, tr) -> ualong utimer_calm cc u0 l = true -> ualong uclose_calm cc u0 l = true ->
  u_open s = true -> u_win s = true -> u_buf s = m :: q -> r <> RFatal -> goes_on cc r m s.
Proof. intros H C1 C2 O W B R. apply go_all with (q := q); [exact R|]. split; try assumption; [exact (ucinv_steps _ _ _ _ _ ucinv0 C1 C2 H)|left; exact W]. Qed.
Print Assumptions C57_goes_on_partial.
Example C57_goes_on_example : exists s tr, let l := congested ++ [AExpire; ABegin 0; AStep 0; AExpire; ABegin 0; AWin true] in
  usteps true u0 l = Some (s, tr) /\ ualong utimer_calm true u0 l = true /\ ualong uclose_calm true u0 l = true /\ u_open s = true /\ u_win s = true /\ u_buf s = [2] /\ u_flag s = true /\ u_fly s = [].
Proof. do 2 eexists. split; [vm_compute; reflexivity|]. split; [vm_compute; reflexivity|]. split; [vm_compute; reflexivity|]. repeat split. Qed.

(** A plain UDP socket (no KCP, or not connected) never uses the timer: no further condition. The socket may be closed and started
    again any number of times, and sends may fail in any way. *)
Lemma plain_step s a s1 t1 : u_tm s = ft_new -> u_pc s <> USet1 -> u_pc s <> USet2 -> ustep false s a = Some (s1, t1) -> u_tm s1 = ft_new /\ u_pc s1 <> USet1 /\ u_pc s1 <> USet2.
Proof.
  intros T P1 P2 E. destruct a; cbn [ustep] in E.
  - inversion E; subst. auto.
  - destruct (u_chk s); [discriminate|]. inversion E; subst. destruct (u_ready s); auto.
  - destruct (u_ld s); [discriminate|]. inversion E; subst. destruct (u_flag s); auto.
  - destruct (u_pc s); try discriminate. destruct (u_post s); [discriminate|]. inversion E; subst. repeat split; try assumption; discriminate.
  - unfold ustrand in E. destruct (u_pc s) as [|b| | | | | |] eqn:P; try discriminate; try congruence.
    + destruct (negb b && u_flag s); inversion E; subst; [|destruct b]; repeat split; try assumption; discriminate.
    + cbn [andb] in E. destruct (u_buf s); inversion E; subst; repeat split; try assumption; discriminate.
    + inversion E; subst; repeat split; try assumption; discriminate.
    + inversion E; subst; destruct (u_buf s); repeat split; try assumption; discriminate.
    + inversion E; subst; repeat split; try assumption; discriminate.
  - destruct (u_pc s); try discriminate. destruct (nth_error (u_fly s) k); [|discriminate]. destruct r; [| |destruct (u_open s); [discriminate|]]; inversion E; subst; repeat split; try assumption; discriminate.
  - destruct (u_res s); [discriminate|]. inversion E; subst. destruct (u_buf s); auto.
  - inversion E; subst. auto.
  - rewrite T in E. discriminate.
  - rewrite T in E. unfold ft_begin in E. cbn in E. destruct k; discriminate.
  - rewrite T in E. unfold ft_step in E. cbn in E. destruct j; discriminate.
  - destruct (u_open s); [|discriminate]. inversion E; subst. cbn. rewrite T. auto.
  - destruct (u_open s); [discriminate|]. inversion E; subst. cbn. rewrite T. auto.
  - destruct (u_open s); [discriminate|]. destruct (u_pc s) eqn:P; try discriminate. destruct (u_fly s); [|discriminate]. destruct (u_post s); [|discriminate]. destruct (u_res s); [|discriminate]. destruct (ft_quiet (u_tm s)); [|discriminate]. inversion E; subst. cbn. repeat split; try assumption; discriminate.
Qed.
Lemma plain_calm l : forall s s' tr, u_tm s = ft_new -> u_pc s <> USet1 -> u_pc s <> USet2 -> usteps false s l = Some (s', tr) ->
  (u_tm s' = ft_new /\ u_pc s' <> USet1 /\ u_pc s' <> USet2) /\ ualong utimer_calm false s l = true /\ ualong uclose_calm false s l = true.
Proof.
  induction l as [|a l IH]; intros s s' tr T P1 P2 H; cbn [usteps ualong] in *; [inversion H; subst; auto|]. destruct (ustep false s a) as [[s1 t1]|] eqn:E; [|discriminate]. destruct (usteps false s1 l) as [[s2 t2]|] eqn:E2; [|discriminate]. inversion H; subst; clear H.
  destruct (plain_step _ _ _ _ T P1 P2 E) as (N1 & N2 & N3). destruct (IH _ _ _ N1 N2 N3 E2) as (X & A & B). split; [exact X|]. rewrite A, B, !andb_true_r. split.
  - destruct a; cbn [utimer_calm]; try reflexivity; destruct (u_pc s); try reflexivity; congruence.
  - destruct a; cbn [uclose_calm]; try reflexivity; rewrite T; destruct (u_pc s); try reflexivity; congruence.
Qed.
Theorem C57_plain_goes_on l s tr r m q : usteps false u0 l = Some (s, tr) -> u_open s = true -> u_buf s = m :: q -> r <> RFatal -> goes_on false r m s.
Proof.
  intros H O B R. destruct (plain_calm l u0 s tr eq_refl ltac:(discriminate) ltac:(discriminate) H) as ((T & P1 & P2) & C1 & C2). apply go_all with (q := q); [exact R|]. split; try assumption; [exact (ucinv_steps _ _ _ _ _ ucinv0 C1 C2 H)|]. right. auto.
Qed.
Print Assumptions C57_plain_goes_on.
(** a send failed because the socket had been closed; what was queued is sent after the socket was started again *)
Example C57_plain_goes_on_example : exists s tr, usteps false u0 [AStart; AReady; ALoad; ARun; AStrand; AStrand; AStrand; AStrand; AEnq false 1; AEnq false 2; AReady; ALoad; AReady; AClose; ARun; AStrand; AStrand; ADone 0 RFatal; AStrand; AStart] = Some (s, tr) /\
  u_open s = true /\ u_buf s = [2] /\ tr = [EvQueued false 1; EvQueued false 2; EvStart 1; EvDone 1 RFatal] /\ u_flag s = false.
Proof. do 2 eexists. split; [vm_compute; reflexivity|]. repeat split. Qed.

(** before the socket is started nothing is sent, and every message given to it waits in the send buffer *)
Definition waiting (s : ust) : Prop :=
  u_fly s = [] /\ u_ld s = 0%nat /\ u_post s = 0%nat /\ u_res s = 0%nat /\ u_pc s = UIdle /\ u_ready s = false /\ u_tm s = ft_new.
Lemma waiting_step cc s a s1 t1 : waiting s -> a <> AStart -> ustep cc s a = Some (s1, t1) -> waiting s1 /\
  (t1 = [] \/ exists p m, t1 = [EvQueued p m]) /\
  forall m, In m (u_buf s1) <-> In m (u_buf s) \/ exists p, In (EvQueued p m) t1.
Proof.
  intros (F & L & P & R & C & Y & T) N E. destruct s as [buf fly flag chk ld post pc ready open win rs tm]. cbn in F, L, P, R, C, Y, T. subst.
  destruct a; cbn in E; try discriminate E.
  - injection E as <- <-. split; [repeat split|]. split; [right; eauto|]. intros x. cbn. destruct prior; cbn.
    + split; [intros [<- | H]; [right; eexists; left; reflexivity | left; exact H] | intros [H | (p & [H | []])]; [right; exact H | injection H as _ ->; left; reflexivity]].
    + rewrite in_app_iff. cbn. split; [intros [H | [<- | []]]; [left; exact H | right; eexists; left; reflexivity] | intros [H | (p & [H | []])]; [left; exact H | injection H as _ ->; right; left; reflexivity]].
  - destruct chk; [discriminate E|]. injection E as <- <-. split; [repeat split|]. split; [left; reflexivity|]. intros x. cbn. split; [left; assumption | intros [H | (p & [])]; exact H].
  - destruct k; discriminate E.
  - injection E as <- <-. split; [repeat split|]. split; [left; reflexivity|]. intros x. cbn. split; [left; assumption | intros [H | (p & [])]; exact H].
  - destruct k; discriminate E.
  - destruct j; discriminate E.
  - destruct open; [|discriminate E]. injection E as <- <-. split; [repeat split|]. split; [left; reflexivity|]. intros x. cbn. split; [left; assumption | intros [H | (p & [])]; exact H].
  - destruct open; [discriminate E|]. injection E as <- <-. split; [repeat split|]. split; [left; reflexivity|]. intros x. cbn. split; [left; assumption | intros [H | (p & [])]; exact H].
  - congruence.
Qed.
Theorem C57_waits_for_start cc l s tr : ~ In AStart l -> usteps cc u0 l = Some (s, tr) ->
  (forall m, ~ In (EvStart m) tr) /\ (forall p m, In (EvQueued p m) tr -> In m (u_buf s)).
Proof.
  intros N H. cut (waiting s /\ (forall m, ~ In (EvStart m) tr) /\ (forall m, In m (u_buf s) <-> In m (u_buf u0) \/ exists p, In (EvQueued p m) tr)).
  { intros (_ & A & B). split; [exact A|]. intros p m I. apply B. right. exists p. exact I. }
  assert (W : waiting u0) by (repeat split). revert W N H. generalize u0. revert s tr.
  induction l as [|a l IH]; intros s tr s0 W N H; cbn [usteps] in H.
  - injection H as <- <-. split; [exact W|]. split; [intros m []|]. intros m. split; [left; assumption | intros [I | (p & [])]; exact I].
  - destruct (ustep cc s0 a) as [[s1 t1]|] eqn:E; [|discriminate]. destruct (usteps cc s1 l) as [[s2 t2]|] eqn:E2; [|discriminate]. injection H as <- <-.
    assert (NA : a <> AStart) by (intros ->; apply N; left; reflexivity).
    destruct (waiting_step _ _ _ _ _ W NA E) as (W1 & T1 & B1).
    destruct (IH _ _ _ W1 (fun I => N (or_intror I)) E2) as (W2 & A2 & B2). split; [exact W2|]. split.
    + intros m I. apply in_app_or in I. destruct I as [I|I]; [|exact (A2 m I)]. destruct T1 as [-> | (p & x & ->)]; [exact I|]. destruct I as [I | []]. discriminate I.
    + intros m. rewrite B2, B1. split.
      * intros [[I | (p & I)] | (p & I)]; [left; exact I | right; exists p; apply in_or_app; left; exact I | right; exists p; apply in_or_app; right; exact I].
      * intros [I | (p & I)]; [left; left; exact I|]. apply in_app_or in I. destruct I as [I|I]; [left; right; exists p; exact I | right; exists p; exact I].
Qed.
Print Assumptions C57_waits_for_start.
(** two threads give messages to the socket before it is started; a moment later it is and both are sent *)
Example C57_waits_for_start_example : exists s tr, usteps false u0 [AEnq false 1; AReady; AEnq true 2; AReady] = Some (s, tr) /\ u_buf s = [2; 1] /\ tr = [EvQueued false 1; EvQueued true 2].
Proof. do 2 eexists. split; [vm_compute; reflexivity|]. split; reflexivity. Qed.
