(** C150: over UDP, everything comes to rest; then everything that was asked for has been sent and handled. *)
From Coq Require Import List NArith Bool Arith Lia Permutation ZifyBool ZifyNat ZifyN Wf_nat.
From Verif Require Import M_Bytes L_Bytes M_Config L_Frame M_Packer S_Packer L_Packer S_Frame M_FTimer M_RecvFlow M_Dispatch L_Dispatch M_UdpSend P_UdpSend M_UdpRx L_Simple M_UdpPath S_UdpPath P_UdpPath.
From Verif Require M_Handle S_Handle P_Handle M_Path S_Path P_Path M_Send.
Import ListNotations.
Open Scope nat_scope.

(** ** plain sockets *)
Record PL (s : M_UdpSend.ust) : Prop := { pl_inv : ucinv s; pl_tm : u_tm s = ft_new; pl_1 : u_pc s <> USet1; pl_2 : u_pc s <> USet2 }.
Lemma PL_step s a s1 t1 : PL s -> ustep false s a = Some (s1, t1) -> PL s1.
Proof.
  intros [IV T P1 P2] E. destruct (plain_step _ _ _ _ T P1 P2 E) as (N1 & N2 & N3). split; try assumption. eapply ucinv_step; [exact IV| | |exact E].
  - destruct a; cbn [utimer_calm]; try reflexivity; destruct (u_pc s); try reflexivity; congruence.
  - destruct a; cbn [uclose_calm]; try reflexivity; rewrite T; destruct (u_pc s); try reflexivity; congruence.
Qed.
Lemma PL_0 : PL u0.
Proof. split; try discriminate; [exact ucinv0|reflexivity]. Qed.
Lemma snd_ustep c s a s1 t1 : qstep c s a = Some (s1, t1) -> forall i x1, nth_error (q_snd s1) i = Some x1 -> exists x, nth_error (q_snd s) i = Some x /\ (s_u x1 = s_u x \/ exists b e, ustep false (s_u x) b = Some (s_u x1, e)).
Proof.
  intros H.
  assert (SAME : q_snd s1 = q_snd s -> forall i x1, nth_error (q_snd s1) i = Some x1 -> exists x, nth_error (q_snd s) i = Some x /\ (s_u x1 = s_u x \/ exists b e, ustep false (s_u x) b = Some (s_u x1, e))).
  { intros -> i x1 N. eauto. }
  assert (ONE : forall j x y, nth_error (q_snd s) j = Some x -> q_snd s1 = upd (q_snd s) j y -> (s_u y = s_u x \/ exists b e, ustep false (s_u x) b = Some (s_u y, e)) ->
    forall i x1, nth_error (q_snd s1) i = Some x1 -> exists x, nth_error (q_snd s) i = Some x /\ (s_u x1 = s_u x \/ exists b e, ustep false (s_u x) b = Some (s_u x1, e))).
  { intros j x y N E C i x1 N1. rewrite E in N1. destruct (Nat.eq_dec j i) as [<-|NE]; [rewrite (upd_same _ _ _ _ N) in N1; inversion N1; subst; eauto|rewrite upd_other in N1 by exact NE; eauto]. }
  assert (GOT : forall net ev, got c s net ev = Some (s1, t1) -> q_snd s1 = q_snd s).
  { intros net ev G. unfold got in G. destruct (udp_step _ _ _ _) as [[rx o]|]; [|discriminate]. destruct (uo_msgs o) as [|m ms]; [inversion G; subst; auto|]. destruct (M_Handle.step _ _ _) as [[h es]|]; [|discriminate]. inversion G; subst. reflexivity. }
  destruct a as [j bs n p|j|j a|j|k|k|k|e|a]; cbn [qstep] in H.
  - destruct (nth_error (q_snd s) j) as [x|] eqn:N; [|discriminate]. destruct (pack_array _ _ _) as [[b [|y d]]|]; [| |discriminate]; [inversion H; subst; apply SAME; reflexivity|].
    unfold queue in H. destruct (ustep false (s_u x) _) as [[u e]|] eqn:E; [|discriminate]. inversion H; subst. eapply ONE; [exact N|reflexivity|]. cbn [s_u]. eauto.
  - destruct (nth_error (q_snd s) j) as [x|] eqn:N; [|discriminate]. destruct (pack_heartbeat _ _) as [d|]; [|discriminate].
    unfold queue in H. destruct (ustep false (s_u x) _) as [[u e]|] eqn:E; [|discriminate]. inversion H; subst. eapply ONE; [exact N|reflexivity|]. cbn [s_u]. eauto.
  - destruct (nth_error (q_snd s) j) as [x|] eqn:N; [|destruct a; discriminate]. destruct a; try discriminate; try (destruct (result_ok (s_left x) r); [|discriminate]); (destruct (ustep false (s_u x) _) as [[u e]|] eqn:E; [|discriminate]); inversion H; subst; (eapply ONE; [exact N|reflexivity|]; cbn [s_u]; eauto).
  - destruct (nth_error (q_snd s) j) as [x|] eqn:N; [|discriminate]. destruct (u_fly (s_u x)); [discriminate|]. destruct (s_left x); [discriminate|]. inversion H; subst. eapply ONE; [exact N|reflexivity|]. left. reflexivity.
  - destruct (nth_error (q_net s) k); [|discriminate]. inversion H; subst. apply SAME. reflexivity.
  - destruct (nth_error (q_net s) k); [|discriminate]. inversion H; subst. apply SAME. reflexivity.
  - destruct (nth_error (q_net s) k) as [[from d]|]; [|discriminate]. destruct (_ && _) in H; [|discriminate]. apply SAME. exact (GOT _ _ H).
  - destruct (may_recv c s); [|discriminate]. apply SAME. exact (GOT _ _ H).
  - apply SAME. destruct a; try discriminate; (destruct (M_Handle.step _ _ _) as [[h es]|]; [|discriminate]; inversion H; subst; reflexivity).
Qed.
Record QP (c : qcfg) (n : nat) (conn : bool) (peer : addr) (s : qst) (t : list qev) : Prop := {
  qp_q : QI c n conn peer s t; qp_pl : forall i x, nth_error (q_snd s) i = Some x -> PL (s_u x) }.
Lemma QP_step c n conn peer s t a s1 t1 : cfg_ok (qc c) = true -> call_ok (qc c) a -> QP c n conn peer s t -> qstep c s a = Some (s1, t1) -> QP c n conn peer s1 (t ++ t1).
Proof.
  intros HC CK [J P] H. split; [exact (QI_step _ _ _ _ _ _ _ _ _ HC CK J H)|]. intros i x1 N. destruct (snd_ustep _ _ _ _ _ H _ _ N) as (x & NX & [->|(b & e & E)]); [exact (P _ _ NX)|exact (PL_step _ _ _ _ (P _ _ NX) E)].
Qed.
Lemma QP_run c n mem conn peer l s t : cfg_ok (qc c) = true -> lenN mem = bufsz (qc c) -> Forall (call_ok (qc c)) l -> qrun c (q0 n mem conn peer) l = Some (s, t) -> QP c n conn peer s t.
Proof.
  intros HC L F H. destruct (qrun_ind c n conn peer (fun _ => True) (fun s _ => forall i x, nth_error (q_snd s) i = Some x -> PL (s_u x)) HC) with (l := l) (s := q0 n mem conn peer) (t := @nil qev) (s' := s) (t' := t) as (J & P); try assumption.
  - intros s2 t2 a s3 t3 J P CK _ E. exact (qp_pl _ _ _ _ _ _ (QP_step c n conn peer s2 t2 a s3 t3 HC CK (Build_QP _ _ _ _ _ _ J P) E)).
  - apply QI_0. exact L.
  - intros i x N. apply nth_error_repeat_some in N as ->. exact PL_0.
  - apply Forall_forall. intros; exact I.
  - split; assumption.
Qed.

(** ** everything comes to rest *)
Definition phase_m (s : M_UdpSend.ust) : nat :=
  match u_buf s with
  | [] => match u_pc s with UIdle => 0 | UErr => 1 | UEmp => 1 | UClr => 2 | UTake => 3 | UDo _ => 4 | USet1 => 2 | USet2 => 1 end
  | _ => match u_pc s with UIdle => 0 | UErr => 1 | UTake => 3 | UDo _ => 4 | UEmp => 5 | UClr => 6 | USet1 => 2 | USet2 => 1 end
  end.
Definition um (s : M_UdpSend.ust) : nat := 12 * length (u_buf s) + 10 * length (u_fly s) + 10 * u_res s + 9 * u_chk s + 8 * u_ld s + 7 * u_post s + phase_m s.
Definition sm (x : snd1) : nat := length (pend x) + um (s_u x).
Fixpoint sms (l : list snd1) : nat := match l with [] => 0 | x :: l' => sm x + sms l' end.
Lemma sms_upd l : forall i x y, nth_error l i = Some x -> sm y < sm x -> sms (upd l i y) < sms l.
Proof. induction l as [|z l IH]; intros [|i] x y N L; cbn [nth_error upd sms] in *; try discriminate; [inversion N; subst; lia|specialize (IH _ _ _ N L); lia]. Qed.
Definition ugo (a : uact) : bool := match a with AReady | ALoad | ARun | AStrand | ADone _ ROk | ARes => true | _ => false end.
Lemma um_step s a s1 t1 : PL s -> ugo a = true -> ustep false s a = Some (s1, t1) -> um s1 < um s.
Proof.
  intros [IV T P1 P2] G H. unfold um, phase_m. destruct a; try discriminate G; cbn [ustep] in H.
  - destruct (u_chk s) as [|n] eqn:E; [discriminate|]. inversion H; subst; clear H. destruct (u_ready s); fields; rewrite ?E; lia.
  - destruct (u_ld s) as [|n] eqn:E; [discriminate|]. inversion H; subst; clear H. destruct (u_flag s); fields; rewrite ?E; lia.
  - destruct (u_pc s) eqn:P; try discriminate. destruct (u_post s) as [|n] eqn:E; [discriminate|]. inversion H; subst; clear H. fields. destruct (u_buf s); lia.
  - unfold ustrand in H. destruct (u_pc s) as [|b| | | | | |] eqn:P; try discriminate; try congruence.
    + destruct (negb b && u_flag s); inversion H; subst; clear H; [|destruct b]; fields; destruct (u_buf s); lia.
    + cbn [andb] in H. destruct (u_buf s) as [|m q] eqn:B; inversion H; subst; clear H; fields; rewrite ?B, ?app_length; cbn [length]; [lia|]. destruct q; cbn [length]; lia.
    + inversion H; subst; clear H. fields. destruct (u_buf s); lia.
    + inversion H; subst; clear H. destruct (u_buf s) eqn:B; fields; rewrite B; cbn [length]; lia.
    + inversion H; subst; clear H. fields. destruct (u_buf s); lia.
  - destruct (u_pc s) eqn:P; try discriminate. destruct (nth_error (u_fly s) k) as [m|] eqn:K; [|discriminate]. pose proof (remove_at_len _ _ _ K) as L. destruct r; try discriminate G. inversion H; subst; clear H. fields. destruct (u_buf s); lia.
  - destruct (u_res s) as [|n] eqn:E; [discriminate|]. inversion H; subst; clear H. destruct (u_buf s) eqn:B; fields; rewrite ?B; lia.
Qed.
Definition pc0 (c : qcfg) : M_Path.pcfg := M_Path.mk_pc (qc c) (qc_nd c) (M_Send.mk_sc 0 0 0) false (qc_batch c) (qc_lim c).
Lemma next_less c n conn peer s t a s1 t1 : cfg_ok (qc c) = true -> qc_batch c = false -> QP c n conn peer s t -> onward a = true -> qstep c s a = Some (s1, t1) ->
  sms (q_snd s1) < sms (q_snd s) \/ sms (q_snd s1) = sms (q_snd s) /\ (length (q_net s1) < length (q_net s) \/ length (q_net s1) = length (q_net s) /\ P_Path.hm (q_h s1) < P_Path.hm (q_h s)).
Proof.
  intros HC B J O H. destruct a as [j bs m p|j|j a|j|k|k|k|e|a]; try discriminate O; cbn [qstep] in H.
  - left. destruct (nth_error (q_snd s) j) as [x|] eqn:N; [|destruct a; discriminate]. pose proof (qp_pl _ _ _ _ _ _ J _ _ N) as PX. pose proof (qi_sb _ _ _ _ _ _ (qp_q _ _ _ _ _ _ J) _ _ N) as BX.
    destruct (match a with ADone _ _ => true | _ => false end) eqn:ISD.
    + destruct a as [| | | | |k r| | | | | | | |]; try discriminate ISD. destruct r; try discriminate O. cbn [result_ok is_fail] in H. destruct (s_left x) eqn:SL; [|discriminate]. destruct (ustep false (s_u x) _) as [[u e]|] eqn:E; [|discriminate]. inversion H; subst; clear H. cbn [q_snd].
      eapply sms_upd; [exact N|]. destruct (done_keeps _ _ _ _ _ (sb_inv _ BX) E) as (y & F1 & F2 & F3). pose proof (um_step _ (ADone k ROk) _ _ PX eq_refl E) as L. unfold sm, pend. cbn [s_left s_u]. rewrite SL, F2, F3. cbn [app]. lia.
    + assert (G : ugo a = true) by (destruct a; try discriminate O; try discriminate ISD; reflexivity). assert (PA : plain_act a) by (destruct a; try discriminate O; try discriminate ISD; exact I).
      assert (H' : exists u e, ustep false (s_u x) a = Some (u, e) /\ q_snd s1 = upd (q_snd s) j (mk_s1 u (s_tab x) (s_left x))).
      { destruct a; try discriminate G; try discriminate ISD; (destruct (ustep false (s_u x) _) as [[u e]|] eqn:E; [|discriminate]; inversion H; subst; exists u, e; split; reflexivity). }
      destruct H' as (u & e & E & ->). eapply sms_upd; [exact N|]. pose proof (um_step _ _ _ _ PX G E) as L. destruct (send_keeps _ _ _ _ (sb_inv _ BX) PA E) as (K1 & K2).
      assert (EP : pend (mk_s1 u (s_tab x) (s_left x)) = pend x).
      { unfold pend. cbn [s_left s_u]. destruct (s_left x) eqn:SL; [|exact K1]. pose proof (sb_left _ BX SL) as NE. rewrite (K2 NE) in K1. apply app_inv_head in K1. rewrite K1. reflexivity. }
      unfold sm. rewrite EP. cbn [s_u]. lia.
  - left. destruct (nth_error (q_snd s) j) as [x|] eqn:N; [|discriminate]. destruct (u_fly (s_u x)) as [|m l] eqn:F; [discriminate|]. destruct (s_left x) eqn:SL; [discriminate|]. inversion H; subst; clear H. cbn [q_snd].
    eapply sms_upd; [exact N|]. unfold sm, pend. cbn [s_left s_u]. rewrite SL, F. cbn [app length]. rewrite app_length. lia.
  - right. destruct (nth_error (q_net s) k) as [[from d]|] eqn:N; [|discriminate]. destruct (_ && _) in H; [|discriminate]. unfold got in H. destruct (udp_step _ _ _ _) as [[rx o]|]; [|discriminate].
    assert (X : q_snd s1 = q_snd s /\ q_net s1 = remove_at k (q_net s)). { destruct (uo_msgs o) as [|m ms]; [inversion H; subst; split; reflexivity|]. destruct (M_Handle.step _ _ _) as [[h es]|]; [|discriminate]. inversion H; subst. split; reflexivity. }
    destruct X as (-> & ->). split; [reflexivity|]. left. pose proof (remove_at_len _ _ _ N). lia.
  - right. assert (H' : exists h es, M_Handle.step (hc c) (q_h s) a = Some (h, es) /\ s1 = mk_q (q_snd s) (q_net s) (q_rx s) (q_tab s) h).
    { destruct a; try discriminate; (destruct (M_Handle.step (hc c) (q_h s) _) as [[h es]|] eqn:E; [|discriminate]; inversion H; subst; eauto). }
    destruct H' as (h & es & E & ->). cbn [q_snd q_net q_h]. split; [reflexivity|]. right. split; [reflexivity|]. destruct (qi_h _ _ _ _ _ _ (qp_q _ _ _ _ _ _ J)) as (th & [[w _] _ _ _ _]).
    eapply (P_Path.hm_step (pc0 c)); [exact B|exact w| |exact E]. destruct a; try discriminate O; try reflexivity; match goal with r : bool |- _ => destruct r; [reflexivity|discriminate O] end.
Qed.
Lemma QP_acc c n conn peer : cfg_ok (qc c) = true -> qc_batch c = false -> forall s t, QP c n conn peer s t -> Acc (next c) s.
Proof.
  intros HC B.
  assert (G : forall n1 n2 n3 s t, sms (q_snd s) = n1 -> length (q_net s) = n2 -> P_Path.hm (q_h s) = n3 -> QP c n conn peer s t -> Acc (next c) s).
  { induction n1 as [n1 I1] using (well_founded_induction lt_wf). induction n2 as [n2 I2] using (well_founded_induction lt_wf). induction n3 as [n3 I3] using (well_founded_induction lt_wf).
    intros s t E1 E2 E3 J. constructor. intros s1 (a & t1 & O & H). assert (CO : call_ok (qc c) a) by (destruct a; try discriminate O; exact I). pose proof (QP_step _ _ _ _ _ _ _ _ _ HC CO J H) as J1.
    destruct (next_less _ _ _ _ _ _ _ _ _ HC B J O H) as [L|(L1 & [L|(L2 & L)])].
    - eapply (I1 (sms (q_snd s1))); [lia| | | |exact J1]; reflexivity.
    - eapply (I2 (length (q_net s1))); [lia| | | |exact J1]; try reflexivity; lia.
    - eapply (I3 (P_Path.hm (q_h s1))); [lia| | | |exact J1]; try reflexivity; lia. }
  intros s t J. exact (G _ _ _ s t eq_refl eq_refl eq_refl J).
Qed.

(** ** at rest *)
Lemma rest_send c n conn peer s t i x : QP c n conn peer s t -> at_rest c s -> nth_error (q_snd s) i = Some x -> u_open (s_u x) = true -> pend x = [].
Proof.
  intros J R N OP. pose proof (qp_pl _ _ _ _ _ _ J _ _ N) as PX. pose proof (qi_sb _ _ _ _ _ _ (qp_q _ _ _ _ _ _ J) _ _ N) as BX.
  assert (IN : forall a, ugo a = true -> plain_act a -> ustep false (s_u x) a = None).
  { intros a G PA. assert (OW : onward (QSend i a) = true) by (destruct a; try discriminate G; try reflexivity; destruct r; try discriminate G; reflexivity). specialize (R _ OW). cbn [qstep] in R. rewrite N in R. destruct a; try discriminate G; try destruct PA; (destruct (ustep false (s_u x) _) as [[u e]|]; [discriminate R|reflexivity]). }
  assert (PI : u_pc (s_u x) = UIdle).
  { pose proof (IN AStrand eq_refl I) as X. cbn [ustep] in X. unfold ustrand in X. destruct (u_pc (s_u x)) as [|b| | | | | |]; try reflexivity; try discriminate X; [destruct (negb b && _); discriminate|]. cbn [andb] in X. destruct (u_buf (s_u x)); discriminate. }
  assert (FL : u_fly (s_u x) = []).
  { destruct (u_fly (s_u x)) as [|m l] eqn:F; [reflexivity|exfalso]. destruct (s_left x) eqn:SL.
    - specialize (R (QSend i (ADone 0 ROk)) eq_refl). cbn [qstep] in R. rewrite N in R. cbn [result_ok] in R. rewrite SL in R. cbn [ustep] in R. rewrite PI, F in R. cbn [nth_error] in R. discriminate R.
    - specialize (R (QLeave i) eq_refl). cbn [qstep] in R. rewrite N, F, SL in R. discriminate R. }
  assert (BU : u_buf (s_u x) = []).
  { destruct (u_buf (s_u x)) as [|m q] eqn:BU; [reflexivity|exfalso].
    pose proof (IN AReady eq_refl I) as X1. pose proof (IN ALoad eq_refl I) as X2. pose proof (IN ARun eq_refl I) as X3. pose proof (IN ARes eq_refl I) as X4. cbn [ustep] in X1, X2, X3, X4. rewrite PI in X3.
    destruct (u_chk (s_u x)) eqn:E1; [|discriminate]. destruct (u_ld (s_u x)) eqn:E2; [|discriminate]. destruct (u_post (s_u x)) eqn:E3; [|discriminate]. destruct (u_res (s_u x)) eqn:E4; [|discriminate].
    destruct (uc_wake _ (pl_inv _ PX) OP ltac:(rewrite BU; discriminate)) as [FG|[X|X]]; [|congruence|lia].
    pose proof (uc_one _ (pl_inv _ PX)) as ONE. unfold utoks in ONE. rewrite FG, FL, PI, (pl_tm _ PX) in ONE. discriminate ONE. }
  unfold pend. rewrite FL, BU. destruct (s_left x); reflexivity.
Qed.
Lemma rest_handler c s th : at_rest c s -> qc_batch c = false -> P_Handle.W (hc c) (q_h s) -> (forall ms, M_Handle.h_i (q_h s) <> M_Handle.IOn ms) -> P_Handle.I98 (hc c) (q_h s) th ->
  M_Handle.h_i (q_h s) = M_Handle.IIdle /\ M_Handle.h_buf (q_h s) = [] /\ S_Handle.pending (q_h s) = [].
Proof.
  intros R B (W1 & W2 & _) NO J.
  assert (IN : forall a, onward (QHand a) = true -> M_Handle.step (hc c) (q_h s) a = None).
  { intros a O. specialize (R _ O). cbn [qstep] in R. destruct a; try discriminate O; (destruct (M_Handle.step _ _ _) as [[? ?]|]; [discriminate R|reflexivity]). }
  assert (BC : M_Handle.batch (hc c) = false) by exact B.
  assert (EI : M_Handle.h_i (q_h s) = M_Handle.IIdle).
  { pose proof (IN M_Handle.HMove eq_refl) as X1. pose proof (IN M_Handle.HTest eq_refl) as X2. pose proof (IN M_Handle.HPost eq_refl) as X3. cbn [M_Handle.step] in *. destruct (M_Handle.h_i (q_h s)) as [|ms|ms sz| |]; try discriminate; [reflexivity|]. destruct (NO ms eq_refl). }
  assert (ED : M_Handle.h_d (q_h s) = M_Handle.DIdle).
  { pose proof (IN M_Handle.HMark eq_refl) as X1. pose proof (IN (M_Handle.HRet true) eq_refl) as X2. pose proof (IN M_Handle.HSet eq_refl) as X3. pose proof (IN M_Handle.HClear eq_refl) as X4. pose proof (IN M_Handle.HRepost eq_refl) as X5.
    cbn [M_Handle.step] in *. rewrite EI in *. rewrite BC in X2. destruct (M_Handle.h_d (q_h s)); try discriminate. reflexivity. }
  assert (EP : M_Handle.h_posted (q_h s) = 0).
  { pose proof (IN M_Handle.HRun eq_refl) as X1. cbn [M_Handle.step] in X1. rewrite ?EI, ?ED, BC in X1. destruct (M_Handle.h_posted (q_h s)); [reflexivity|]. destruct (M_Handle.h_disp (q_h s)); [discriminate|]. destruct (M_Handle.h_buf (q_h s)); discriminate. }
  assert (ET : M_Handle.h_timer (q_h s) = false).
  { pose proof (IN M_Handle.HFire eq_refl) as X1. cbn [M_Handle.step] in X1. rewrite ?EI, ?ED in X1. destruct (M_Handle.h_timer (q_h s)); [discriminate|reflexivity]. }
  assert (EB : M_Handle.h_disp (q_h s) = false).
  { destruct (M_Handle.h_disp (q_h s)) eqn:EB; [|reflexivity]. destruct (W1 ED eq_refl) as [X|X]; [congruence|lia]. }
  assert (EH : M_Handle.held (q_h s) ++ M_Handle.h_buf (q_h s) = []).
  { destruct (M_Handle.held (q_h s) ++ M_Handle.h_buf (q_h s)) eqn:EH; [reflexivity|]. destruct W2 as [X|[X|[X|[X|X]]]]; try congruence; try lia; discriminate. }
  apply app_eq_nil in EH as (E1 & E2). split; [exact EI|]. split; [exact E2|]. unfold S_Handle.pending. rewrite E1, E2, EI. reflexivity.
Qed.
Lemma number_length k l : length (number k l) = length l.
Proof. unfold number. etransitivity; [apply combine_length|]. rewrite seq_length, map_length. apply Nat.min_id. Qed.
(** everything that arrived has been handled, and nothing is left in the network *)
Lemma rest_receive c n conn peer s t : cfg_ok (qc c) = true -> qc_batch c = false -> (0 < qc_lim c)%N -> QP c n conn peer s t -> at_rest c s -> ureceiving (q_rx s) = true -> (conn = true -> Forall (fun x => fst x = peer) (sent t)) ->
  handled t = q_tab s /\ q_net s = [].
Proof.
  intros HC B LM J R RC PE. destruct (qi_h _ _ _ _ _ _ (qp_q _ _ _ _ _ _ J)) as (th & [HJ (HB1 & HB2) HO HR HN]). destruct (rest_handler _ _ _ R B (proj1 HJ) HO HJ) as (EI & EB & EP). split.
  - rewrite HN. destruct HJ as [_ HJ]. rewrite HR, EP, app_nil_r in HJ. rewrite <- HJ, number_length. apply firstn_all.
  - destruct (q_net s) as [|[from d] l] eqn:NE; [reflexivity|exfalso]. specialize (R (QTake 0) eq_refl). cbn [qstep] in R. rewrite NE in R. cbn [nth_error] in R.
    assert (MR : may_recv c s = true) by (unfold may_recv; rewrite RC, EI, HB1, EB; cbn [M_Handle.bytes andb]; apply N.ltb_lt; exact LM).
    destruct (qi_rx _ _ _ _ _ _ (qp_q _ _ _ _ _ _ J)) as (R1 & R2 & R3).
    assert (AD : negb (uconn (q_rx s)) || (from =? upeer (q_rx s))%N = true).
    { rewrite R2, R3. destruct conn; [|reflexivity]. cbn [negb orb]. apply N.eqb_eq. specialize (PE eq_refl). rewrite Forall_forall in PE. apply (PE (from, d)). apply (qi_net _ _ _ _ _ _ (qp_q _ _ _ _ _ _ J)). rewrite NE. left. reflexivity. }
    rewrite MR, AD in R. cbn [andb] in R. unfold got in R.
    destruct (udp_step_ok (qc c) HC (qc_win c) conn peer (q_rx s) (Arrive from d)) as (rx & ES & _); [repeat split; assumption|reflexivity|]. rewrite ES in R. cbn [uo_msgs] in R.
    destruct (udp_seen _ _ _ _); [discriminate R|]. cbn [M_Handle.step hc M_Handle.sync M_Handle.passive] in R. rewrite EI in R. destruct (M_Handle.is_nil _); discriminate R.
Qed.

(** Once the applications call nothing any more, everything comes to rest, whatever the order. If the sockets are up then and the network was
    orderly, everything that left the hosts has been handled, in that order; if no send failed, everything that was asked for has left them. *)
Theorem C150_at_rest : forall c n mem conn peer l s t, cfg_ok (qc c) = true -> lenN mem = bufsz (qc c) -> Forall (call_ok (qc c)) l -> qrun c (q0 n mem conn peer) l = Some (s, t) -> qc_batch c = false -> (0 < qc_lim c)%N ->
  Acc (next c) s /\
  (at_rest c s -> ureceiving (q_rx s) = true -> Forall orderly l -> (conn = true -> Forall (fun x => fst x = peer) (sent t)) ->
   handled t = sent t /\
   forall i x, nth_error (q_snd s) i = Some x -> u_open (s_u x) = true -> Forall (no_fail i) l -> Permutation (sent_by i t) (asked (qc c) i t) /\ (Forall (no_prior i) l -> sent_by i t = asked (qc c) i t)).
Proof.
  intros c n mem conn peer l s t HC L F H B LM. pose proof (QP_run _ _ _ _ _ _ _ _ HC L F H) as J. split; [exact (QP_acc _ _ _ _ HC B _ _ J)|].
  intros R RC OD PE. split.
  - destruct (rest_receive _ _ _ _ _ _ HC B LM J R RC PE) as (E1 & E2). pose proof (orderly_net _ _ _ _ _ _ _ _ HC L F H OD) as E3. rewrite E1, <- E3, E2, app_nil_r. reflexivity.
  - intros i x N OP NF. assert (LI : i < n) by (rewrite <- (qi_len _ _ _ _ _ _ (qp_q _ _ _ _ _ _ J)); apply nth_error_Some; congruence).
    assert (PM : Permutation (sent_by i t) (asked (qc c) i t)).
    { destruct (qrun_ind c n conn peer (no_fail i) (fun s t => forall x, nth_error (q_snd s) i = Some x -> Permutation (sent_by i t ++ line x) (asked (qc c) i t)) HC) with (l := l) (s := q0 n mem conn peer) (t := @nil qev) (s' := s) (t' := t) as (_ & P); try assumption.
      - clear -HC. intros s t a s1 t1 J P CK NP H x1 N. destruct (snd_step c s a s1 t1 HC CK (qi_sb _ _ _ _ _ _ J) H) as (_ & _ & L3). destruct (L3 _ _ N) as (x & NX & B1 & CH). specialize (P _ NX). rewrite asked_app, sent_by_app.
        destruct (line_step _ _ _ _ _ _ (qi_sb _ _ _ _ _ _ J _ _ NX) CH) as [(E1 & E2 & E3)|[(d & E1 & E2 & E3)|[(d & u & v & E1 & E2 & E3 & E4 & _)|[(d & E1 & E2 & E3)|(d & E1 & E2 & E3 & k & r & -> & NR)]]]].
        + rewrite E1, E2, E3, !app_nil_r. exact P.
        + rewrite E1, E2, E3, app_nil_r, app_assoc. apply Permutation_app_tail. exact P.
        + rewrite E1, E2, E4, app_nil_r. rewrite E3 in P. etransitivity; [|apply Permutation_app_tail; exact P]. rewrite <- !app_assoc. apply Permutation_app_head. apply Permutation_app_head. change (d :: v) with ([d] ++ v). apply Permutation_app_comm.
        + rewrite E1, E2, app_nil_r. rewrite E3 in P. rewrite <- app_assoc. exact P.
        + exfalso. exact (NR (NP eq_refl)).
      - apply QI_0. exact L.
      - intros y N0. apply nth_error_repeat_some in N0 as ->. constructor.
      - specialize (P _ N). unfold line in P. rewrite (rest_send _ _ _ _ _ _ _ _ J R N OP) in P. cbn [map] in P. rewrite app_nil_r in P. exact P. }
    split; [exact PM|]. intros NP. destruct (C150_in_order _ _ _ _ _ _ _ _ i HC L F H LI NP) as (_ & X). destruct (X NF) as (rest & E). rewrite E in PM. apply Permutation_length in PM. rewrite app_length in PM. destruct rest; [rewrite app_nil_r in E; auto|cbn [length] in PM; lia].
Qed.
(** two hosts; all is handled, and nothing is left to do *)
Definition ex_all : list qact :=
  [QSend 0 AStart; QSend 1 AStart; QCall 0 (word [Byte.x61]) true false; QCall 1 (word [Byte.x62]) true false] ++ go 0 ++ go 1.
(** carries on until none of the actions is possible *)
Fixpoint settle (fuel : nat) (c : qcfg) (s : qst) (acts : list qact) : list qact :=
  match fuel with
  | O => []
  | S f => match find (fun a => match qstep c s a with Some _ => true | None => false end) acts with
           | Some a => match qstep c s a with Some (s1, _) => a :: settle f c s1 acts | None => [] end
           | None => []
           end
  end.
Definition onwards : list qact :=
  flat_map (fun i => [QSend i AReady; QSend i ALoad; QSend i ARun; QSend i AStrand; QSend i ARes; QLeave i; QSend i (ADone 0 ROk)]) [0; 1] ++
  [QTake 0] ++ map QHand [M_Handle.HMove; M_Handle.HTest; M_Handle.HPost; M_Handle.HRun; M_Handle.HMark; M_Handle.HRet true; M_Handle.HSet; M_Handle.HClear; M_Handle.HRepost; M_Handle.HFire].
Definition ex_settled : list qact := Eval vm_compute in
  ex_all ++ match qrun ex_qc (q0 2 ex_mem false 0%N) ex_all with Some (s, _) => settle 200 ex_qc s onwards | None => [] end.
Example C150_at_rest_example : exists s t, qrun ex_qc (q0 2 ex_mem false 0%N) ex_settled = Some (s, t) /\ Forall (call_ok (qc ex_qc)) ex_settled /\ at_rest ex_qc s /\ ureceiving (q_rx s) = true /\ Forall orderly ex_settled /\
  map (fun x => u_open (s_u x)) (q_snd s) = [true; true] /\ Forall (no_fail 0) ex_settled /\ Forall (no_prior 1) ex_settled /\ handled t = [(0%N, [Byte.x61]); (1%N, [Byte.x62])] /\ asked (qc ex_qc) 1 t = [[Byte.x62]].
Proof.
  do 2 eexists. split; [vm_compute; reflexivity|]. split; [repeat constructor; vm_compute; discriminate|]. split.
  { intros a O. destruct a as [i bs n p|i|i a|i|k|k|k|e|a]; try discriminate O.
    - destruct i as [|[|[|i]]]; destruct a; try discriminate O; try reflexivity; destruct k as [|[|k]]; destruct r; try discriminate O; reflexivity.
    - destruct i as [|[|[|i]]]; reflexivity.
    - destruct k; [reflexivity|discriminate O].
    - destruct a; try discriminate O; reflexivity. }
  split; [reflexivity|]. split; [repeat constructor|]. split; [reflexivity|]. split; [repeat constructor|]. split; [repeat constructor; discriminate|]. split; reflexivity.
Qed.
Print Assumptions C150_at_rest.
