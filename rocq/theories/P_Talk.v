From Coq Require Import List NArith Bool Arith Lia.
From Verif Require Import M_Bytes M_Config M_Packer S_Packer M_Queue M_Send S_Send M_Wire S_Wire M_Rx S_Rx M_Path S_Path M_Talk S_Talk.
From Verif Require M_Handle S_Handle P_Handle S_Frame P_Wire P_Path P_Echo L_Packer L_Send M_Echo M_Unpacker P_Unpacker.
Import ListNotations.
Import P_Path (frm, hs, not_up, call_ok).
Open Scope nat_scope.

(** ** C158: what comes back from an echo server is what was sent *)
(** ** the way to the server *)
Definition after_up (s : M_Handle.hst) (t : list pev) : Prop := s = M_Handle.handle0 /\ hs t = [].
Lemma prun_snoc {S} c (u : unpk S) s0 l : forall s a s1 t s2 e, prun c u s0 s l = Some (s1, t) -> pstep c u s0 s1 a = Some (s2, e) -> prun c u s0 s (l ++ [a]) = Some (s2, t ++ e).
Proof.
  induction l as [|x l IH]; intros s a s1 t s2 e H D; cbn [prun app] in *.
  - injection H as <- <-. rewrite D, app_nil_r. reflexivity.
  - destruct (pstep c u s0 s x) as [[s3 e3]|]; [|discriminate]. destruct (prun c u s0 s3 l) as [[s4 e4]|] eqn:Q; [|discriminate]. injection H as <- <-.
    rewrite (IH _ _ _ _ _ _ Q D), app_assoc. reflexivity.
Qed.
Lemma held_step c h a h' es : M_Handle.batch c = false -> M_Handle.sync c = false -> (forall ms, M_Handle.h_i h <> M_Handle.IOn ms) -> (forall k, a <> M_Handle.HTake k) -> (forall k, a <> M_Handle.HRet k) -> M_Handle.step c h a = Some (h', es) ->
  S_Handle.handled es = [] /\ (M_Handle.h_d h = M_Handle.DIn -> M_Handle.h_d h' = M_Handle.DIn /\ M_Handle.h_held h' = M_Handle.h_held h).
Proof.
  intros B SY NI N1 N2 D. destruct a; try (exfalso; eapply N1; reflexivity); try (exfalso; eapply N2; reflexivity); unfold M_Handle.step in D; rewrite ?B, ?SY in D;
    destruct (M_Handle.h_i h) eqn:EI; try (exfalso; eapply NI; reflexivity); destruct (M_Handle.h_d h) eqn:ED; try discriminate D;
    repeat match type of D with
    | (if ?y then _ else _) = _ => destruct y
    | match ?y with _ => _ end = _ => destruct y
    end; try discriminate D; pose proof (f_equal (fun z => match z with Some (_, y) => y | None => [] end) D) as DE; pose proof (f_equal (fun z => match z with Some (y, _) => y | None => h end) D) as DH; cbn beta iota in DE, DH; subst es; subst h';
    (split; [reflexivity|]); intro; try discriminate; cbn; auto.
Qed.
Lemma in_hand_body {S} c (s : pst S) th hn m : P_Path.HI c (p_tab s) (p_h s) th hn -> M_Handle.h_held (p_h s) = Some m -> fst m < length (p_tab s).
Proof.
  intros [[_ H] _ _ R _] E. rewrite R in H. assert (I : In m (number 0 (p_tab s))). { rewrite H. apply in_or_app. right. unfold S_Handle.pending, M_Handle.held. rewrite E. left. reflexivity. }
  unfold number in I. destruct m as [k z]. apply in_combine_l in I. apply in_seq in I. cbn. lia.
Qed.
Lemma got_hand {S} c (s : pst S) net rx live outs s1 t1 th hn : pc_batch c = false -> P_Path.HI c (p_tab s) (p_h s) th hn -> got c s net rx live outs = Some (s1, t1) ->
  p_w s1 = p_w s /\ wtr t1 = [] /\ forallb not_up t1 = true /\ hs t1 = [] /\ (forall b, at_hand s = Some b -> at_hand s1 = Some b).
Proof.
  intros B J H. unfold got in H. destruct outs as [|ms r]; [injection H as <- <-; cbn; repeat split; auto|].
  destruct (M_Handle.step (hcfg c) (p_h s) _) as [[h es]|] eqn:D; [|discriminate H]. injection H as <- <-. destruct (P_Path.seen_facts (p_tab s ++ ms) es) as (F1 & F2 & F3 & F4).
  destruct (held_step (hcfg c) _ (M_Handle.HRecv (number (length (p_tab s)) ms)) _ _ B eq_refl (P_Path.hi_on _ _ _ _ _ J) ltac:(intros ? X; discriminate X) ltac:(intros ? X; discriminate X) D) as [E1 E2]. rewrite E1 in F4. cbn [p_w]. do 4 (split; [assumption || reflexivity|]).
  intros b A. unfold at_hand in *. cbn [p_h p_tab]. destruct (M_Handle.h_d (p_h s)) eqn:HD; try discriminate A. destruct (E2 eq_refl) as [-> ->]. destruct (M_Handle.h_held (p_h s)) as [m|] eqn:HM; [|discriminate A].
  injection A as <-. pose proof (in_hand_body _ _ _ _ _ J HM) as LT. unfold body. rewrite app_nth1 by exact LT. reflexivity.
Qed.
Lemma wire_quiet {S} c (u : unpk S) s0 s w e s1 t1 : wire_step c u s0 s w e = Some (s1, t1) -> is_wup (PWire w) = false -> wtr e = [] -> forallb not_up e = true -> hs e = [] ->
  exists vs, wstep (pc_s c) (p_w s) w = Some (p_w s1, vs) /\ wtr t1 = vs /\ forallb not_up t1 = true /\ hs t1 = [] /\ at_hand s1 = at_hand s /\ p_live s1 = p_live s /\ p_h s1 = p_h s.
Proof.
  intros H U E1 E2 E3. unfold wire_step in H. destruct (wstep (pc_s c) (p_w s) w) as [[x vs]|] eqn:D; [|discriminate H]. exists vs.
  assert (N : forallb (fun v => negb (P_Wire.is_up v)) vs = true) by (destruct (P_Wire.wstep_ups _ _ _ _ _ D) as [N|(_ & i & ->)]; [exact N|discriminate U]).
  assert (T1 : t1 = e ++ map PV vs) by (injection H as _ <-; reflexivity). subst t1. rewrite P_Path.wtr_app, E1, P_Path.wtr_PV, forallb_app, E2, P_Path.not_up_PV, N.
  assert (HS : hs (e ++ map PV vs) = []). { clear - E3. induction e as [|[v|y|ms] e IH]; cbn [app hs] in *; auto using P_Path.hs_PV. apply app_eq_nil in E3 as [-> E3]. cbn. auto. }
  rewrite HS. destruct w; try discriminate U; injection H as <-; cbn; repeat split; auto.
Qed.
(** on the way to the server, nothing but the callback changes what was handled and what is in the callback *)
Lemma a_step {S} c (u : unpk S) s0 t s a s1 e : P_Path.Q c u s0 t s -> pc_batch c = false -> a_own a = true -> is_wup a = false -> pstep c u s0 s a = Some (s1, e) ->
  forallb not_up e = true /\ hs e = [] /\ (forall b, at_hand s = Some b -> at_hand s1 = Some b).
Proof.
  intros J B O U H. destruct (P_Path.q_h _ _ _ _ _ J) as (th & HI). destruct a as [i x p o|x p o|i|w|k| |a]; cbn [pstep] in H.
  - destruct (send_msg (pc c) (pc_nd c) true x) as [[[|] [|it its]]|]; try discriminate H; try (injection H as <- <-; cbn; auto; fail).
    destruct (wire_quiet _ _ _ _ _ _ _ _ H eq_refl eq_refl eq_refl eq_refl) as (vs & _ & _ & X & Y & Z & _). rewrite Z. auto.
  - destruct (send_msg (pc c) (pc_nd c) true x) as [[[|] [|it its]]|]; try discriminate H; try (injection H as <- <-; cbn; auto; fail).
    destruct (wire_quiet _ _ _ _ _ _ _ _ H eq_refl eq_refl eq_refl eq_refl) as (vs & _ & _ & X & Y & Z & _). rewrite Z. auto.
  - destruct (pack_heartbeat (pc c) (pc_nd c)) as [h|]; [|discriminate H]. destruct (wire_quiet _ _ _ _ _ _ _ _ H eq_refl eq_refl eq_refl eq_refl) as (vs & _ & _ & X & Y & Z & _). rewrite Z. auto.
  - destruct (is_call w); [discriminate H|]. destruct (wire_quiet _ _ _ _ _ _ _ _ H U eq_refl eq_refl eq_refl) as (vs & _ & _ & X & Y & Z & _). rewrite Z. auto.
  - destruct (_ && _); [|discriminate H]. destruct (feed _ _ _ _) as [[rx os]|]; [|discriminate H]. destruct (got_hand _ _ _ _ _ _ _ _ _ _ B HI H) as (_ & _ & X). exact X.
  - destruct (_ && _); [|discriminate H]. destruct (read_error _ _) as [[? ms]|]; [|discriminate H]. destruct (got_hand _ _ _ _ _ _ _ _ _ _ B HI H) as (_ & _ & X). exact X.
  - assert (NR : forall ms, a <> M_Handle.HRecv ms) by (intros ms ->; discriminate H).
    assert (D : exists h es, M_Handle.step (hcfg c) (p_h s) a = Some (h, es) /\ s1 = mk_p (p_w s) (p_net s) (p_rx s) (p_live s) (p_tab s) h /\ e = seen (p_tab s) es).
    { destruct a; try discriminate H; (destruct (M_Handle.step (hcfg c) (p_h s) _) as [[h es]|]; [|discriminate H]; injection H as <- <-; eauto). }
    destruct D as (h & es & D & -> & ->). destruct (P_Path.seen_facts (p_tab s) es) as (_ & _ & F3 & F4).
    destruct (held_step (hcfg c) _ a _ _ B eq_refl (P_Path.hi_on _ _ _ _ _ HI) ltac:(intros k ->; discriminate O) ltac:(intros k ->; discriminate O) D) as [E1 E2]. rewrite E1 in F4. split; [exact F3|]. split; [exact F4|].
    intros b A. unfold at_hand in *. cbn [p_h p_tab]. destruct (M_Handle.h_d (p_h s)) eqn:HD; try discriminate A. destruct (E2 eq_refl) as [-> ->]. exact A.
Qed.
(** before the link is established nothing is received *)
Lemma a_before {S} c (u : unpk S) s0 s a s1 e : p_live s = false -> p_h s = M_Handle.handle0 -> is_wup a = false -> pstep c u s0 s a = Some (s1, e) -> p_live s1 = false /\ p_h s1 = M_Handle.handle0.
Proof.
  intros L HH U H. destruct a as [i x p o|x p o|i|w|k| |a]; cbn [pstep] in H.
  - destruct (send_msg (pc c) (pc_nd c) true x) as [[[|] [|it its]]|]; try discriminate H; try (injection H as <- <-; auto; fail).
    destruct (wire_quiet _ _ _ _ _ _ _ _ H eq_refl eq_refl eq_refl eq_refl) as (vs & _ & _ & _ & _ & _ & -> & ->). auto.
  - destruct (send_msg (pc c) (pc_nd c) true x) as [[[|] [|it its]]|]; try discriminate H; try (injection H as <- <-; auto; fail).
    destruct (wire_quiet _ _ _ _ _ _ _ _ H eq_refl eq_refl eq_refl eq_refl) as (vs & _ & _ & _ & _ & _ & -> & ->). auto.
  - destruct (pack_heartbeat (pc c) (pc_nd c)) as [h|]; [|discriminate H]. destruct (wire_quiet _ _ _ _ _ _ _ _ H eq_refl eq_refl eq_refl eq_refl) as (vs & _ & _ & _ & _ & _ & -> & ->). auto.
  - destruct (is_call w); [discriminate H|]. destruct (wire_quiet _ _ _ _ _ _ _ _ H U eq_refl eq_refl eq_refl) as (vs & _ & _ & _ & _ & _ & -> & ->). auto.
  - unfold may_read in H. rewrite L in H. discriminate H.
  - rewrite L in H. discriminate H.
  - rewrite HH in H. destruct a; discriminate H.
Qed.

(** ** the way back *)
Lemma exec_frames c here s f s1 nxt l : exec c here s f = (s1, nxt, l) -> P_Echo.calmf f -> frames [l] = [].
Proof.
  intros E C. destruct f; cbn [P_Echo.calmf] in C; try contradiction; cbn [exec] in E;
    repeat match type of E with
    | (if ?x then _ else _) = _ => destruct x
    | (let '(_, _) := ?x in _) = _ => destruct x
    | match ?x with _ => _ end = _ => destruct x
    end; injection E as _ _ <-; reflexivity.
Qed.
Lemma s_frames c s a s1 l t0 t1 : M_Echo.s_own a = true -> act c s a = Some (s1, l) -> threads s = [t0; t1] -> P_Echo.mild t1 -> Forall P_Echo.calmf (strand s) -> frames [l] = [].
Proof.
  intros O A T M F. destruct a; cbn [M_Echo.s_own] in O; try discriminate O; cbn [act] in A.
  - apply Nat.eqb_eq in O. subst i. rewrite T in A. cbn [nth_error] in A. destruct t1 as [f|]; [|discriminate A].
    destruct (exec c false s f) as [[s2 nxt] l2] eqn:E. injection A as _ <-. refine (exec_frames _ _ _ _ _ _ _ E _). destruct f; cbn in M; try contradiction; exact I.
  - destruct (strand s) as [|f st] eqn:S; [discriminate A|]. inversion F; subst.
    assert (E : exists s2 nxt, exec c true s f = (s2, nxt, l)) by (destruct f; try discriminate A; (destruct (exec c true s _) as [[s2 nxt] l2]; injection A as _ <-; eauto)).
    destruct E as (s2 & nxt & E). exact (exec_frames _ _ _ _ _ _ _ E H1).
  - destruct (strand s); [|discriminate A]. destruct (posted s); [discriminate A|]. injection A as _ <-. reflexivity.
  - destruct (strand s) as [|f st]; [discriminate A|]. destruct f; try discriminate A. injection A as _ <-. reflexivity.
  - destruct (strand s); [|discriminate A]. destruct (nth_error (writes s) k); [|discriminate A]. injection A as _ <-. destruct ok; reflexivity.
  - apply Nat.eqb_eq in O. subst i. rewrite T in A. cbn [nth_error] in A. destruct t1 as [f|]; [discriminate A|]. destruct (strand s); [|discriminate A]. destruct (writes s); [|discriminate A]. destruct (posted s); [|discriminate A].
    injection A as _ <-. reflexivity.
  - injection A as _ <-. reflexivity.
Qed.
Record calm (s : sstate) (t0 : option frame) (b : list label) : Prop := {
  k_np : no_prior b; k_st : Forall P_Echo.calmf (strand s); k_th : exists t1, threads s = [t0; t1] /\ P_Echo.mild t1 }.
Lemma wire_b c s w s1 vs t0 b : b_own (PWire w) = true -> is_call w = false -> wstep c s w = Some (s1, vs) -> calm (w_s s) t0 b ->
  calm (w_s s1) t0 (b ++ labels vs) /\ frames (labels vs) = [].
Proof.
  intros O N H K.
  assert (G : w_s s1 = w_s s /\ labels vs = [] \/ exists a l, M_Echo.s_own a = true /\ act c (w_s s) a = Some (w_s s1, l) /\ labels vs = [l]).
  { destruct w; cbn [wstep] in H; unfold lift in H;
    repeat match type of H with
    | (if ?y then _ else _) = _ => destruct y eqn:?
    | match act c (w_s s) ?a with _ => _ end = _ => destruct (act c (w_s s) a) as [[? ?]|] eqn:?
    | match ?y with _ => _ end = _ => destruct y eqn:?
    end; try discriminate H; injection H as <- <-; cbn [w_s labels]; try (left; split; reflexivity).
    all: right; do 2 eexists; split; [|split; [eassumption|reflexivity]]; try reflexivity; try exact O.
    destruct a; cbn in *; try discriminate; auto. }
  destruct G as [[-> ->]|(a & l & A1 & A2 & ->)]; [rewrite app_nil_r; auto|]. destruct K as [K1 K2 (t1 & T & M)].
  destruct (P_Echo.s_step _ _ _ _ _ _ _ A1 A2 T M K2) as (_ & B2 & B3 & B4). split; [|exact (s_frames _ _ _ _ _ _ _ A1 A2 T M K2)].
  split; [apply L_Send.no_prior_app; auto|exact B4|exact B3].
Qed.
Lemma b_step {S} c (u : unpk S) s0 s a s1 e t0 tb : b_own a = true -> pstep c u s0 s a = Some (s1, e) -> calm (w_s (p_w s)) t0 (labels (wtr tb)) ->
  calm (w_s (p_w s1)) t0 (labels (wtr (tb ++ e))) /\ frames (labels (wtr (tb ++ e))) = frames (labels (wtr tb)).
Proof.
  intros O H K. rewrite P_Path.wtr_app, P_Wire.labels_app, P_Path.frames_app.
  assert (SAME : p_w s1 = p_w s -> wtr e = [] -> calm (w_s (p_w s1)) t0 (labels (wtr tb) ++ labels (wtr e)) /\ frames (labels (wtr tb)) ++ frames (labels (wtr e)) = frames (labels (wtr tb))).
  { intros -> ->. cbn [labels frames]. rewrite !app_nil_r. auto. }
  assert (GOT : forall net rx live outs, got c s net rx live outs = Some (s1, e) -> p_w s1 = p_w s /\ wtr e = []).
  { intros net rx live outs X. unfold got in X. destruct outs as [|ms r]; [injection X as <- <-; auto|]. destruct (M_Handle.step _ _ _) as [[h es]|]; [|discriminate X]. injection X as <- <-. split; [reflexivity|apply P_Path.seen_facts]. }
  destruct a as [i x p o|x p o|i|w|k| |a]; try discriminate O; cbn [pstep] in H.
  - destruct (is_call w) eqn:IC; [discriminate H|]. unfold wire_step in H. destruct (wstep (pc_s c) (p_w s) w) as [[x vs]|] eqn:D; [|discriminate H].
    assert (E1 : p_w s1 = x /\ e = map PV vs) by (destruct w; injection H as <- <-; auto). destruct E1 as [-> ->]. rewrite P_Path.wtr_PV. destruct (wire_b _ _ _ _ _ _ _ O IC D K) as [K1 ->]. rewrite app_nil_r. auto.
  - destruct (_ && _); [|discriminate H]. destruct (feed _ _ _ _) as [[rx os]|]; [|discriminate H]. destruct (GOT _ _ _ _ H). auto.
  - destruct (_ && _); [|discriminate H]. destruct (read_error _ _) as [[? ms]|]; [|discriminate H]. destruct (GOT _ _ _ _ H). auto.
  - assert (D : p_w s1 = p_w s /\ exists es, e = seen (p_tab s) es).
    { destruct a; try discriminate H; (destruct (M_Handle.step (hcfg c) (p_h s) _) as [[h es]|]; [|discriminate H]; injection H as <- <-; eauto). }
    destruct D as [D1 (es & ->)]. apply SAME; [exact D1|apply P_Path.seen_facts].
Qed.

(** ** both together *)
Definition frs (t : list pev) : list (list byte) := frames (labels (wtr t)).
Definition coupled {S} (c2 : pcfg) (a : pst S) (k : option bool) (t0 : option frame) (ta tb : list pev) : Prop :=
  match k with
  | None => t0 = None /\ frs tb = map (frm (pc c2)) (handled_now ta)
  | Some ok => exists m, at_hand a = Some m /\
      match t0 with
      | Some (FCheck it p _) | Some (FEnq it p) => p = false /\ concat it = frm (pc c2) m /\ ok = false /\ frs tb = map (frm (pc c2)) (handled_now ta)
      | None => frs tb = map (frm (pc c2)) (handled_now ta ++ if ok then [m] else [])
      | _ => P_Echo.mild t0 /\ ok = true /\ frs tb = map (frm (pc c2)) (handled_now ta ++ [m])
      end
  end.
Definition tcall_ok (c : pcfg) (a : tact) : Prop := match a with TA a => call_ok c a | _ => True end.
Record R {S1 S2} (c1 c2 : pcfg) (u1 : unpk S1) (i1 : S1) (u2 : unpk S2) (i2 : S2) (n : nat) (s : tst S1 S2) (ta tb : list pev) : Prop := {
  r_a : exists l, Forall (call_ok c1) l /\ prun c1 u1 i1 (p_init u1 i1 n) l = Some (t_a s, ta);
  r_b : exists l, Forall (call_ok c2) l /\ prun c2 u2 i2 (p_init u2 i2 2) l = Some (t_b s, tb);
  r_ups : ups (wtr ta) = if t_up s then 1 else 0;
  r_up : t_up s = false -> p_live (t_a s) = false /\ p_h (t_a s) = M_Handle.handle0 /\ handled_now ta = [] /\ t_c s = None;
  r_k : exists t0, calm (w_s (p_w (t_b s))) t0 (labels (wtr tb)) /\ coupled c2 (t_a s) (t_c s) t0 ta tb }.
Lemma coupled_b {S} c2 (a : pst S) k t0 ta tb tb' : frs tb' = frs tb -> coupled c2 a k t0 ta tb -> coupled c2 a k t0 ta tb'.
Proof. intros E H. unfold coupled in *. rewrite E. exact H. Qed.
Lemma coupled_a {S} c2 (a a' : pst S) k t0 ta ta' tb : handled_now ta' = handled_now ta -> (forall b, at_hand a = Some b -> at_hand a' = Some b) -> coupled c2 a k t0 ta tb -> coupled c2 a' k t0 ta' tb.
Proof. intros E A H. unfold coupled in *. rewrite E. destruct k as [ok|]; [|exact H]. destruct H as (m & H1 & H2). exists m. auto. Qed.
Lemma up_step {S} c (u : unpk S) s0 s i s1 e t : pstep c u s0 s (PWire (WUp i)) = Some (s1, e) -> handled_now (t ++ e) = [].
Proof.
  intros H. cbn [pstep is_call] in H. unfold wire_step in H. destruct (wstep (pc_s c) (p_w s) (WUp i)) as [[x vs]|] eqn:D; [|discriminate H]. injection H as _ <-. cbn [app].
  assert (E : vs = [WL LUp]). { cbn [wstep] in D. destruct (ready _); [discriminate D|]. unfold lift in D. cbn [act] in D. repeat match type of D with match (match ?y with _ => _ end) with _ => _ end = _ => destruct y end; try discriminate D; injection D as _ <-; reflexivity. }
  subst vs. cbn [map]. rewrite P_Path.hnow_snoc. reflexivity.
Qed.
Lemma up_ups {S} c (u : unpk S) s0 s i s1 e : pstep c u s0 s (PWire (WUp i)) = Some (s1, e) -> ups (wtr e) = 1.
Proof.
  intros H. cbn [pstep is_call] in H. unfold wire_step in H. destruct (wstep (pc_s c) (p_w s) (WUp i)) as [[x vs]|] eqn:D; [|discriminate H]. injection H as _ <-. cbn [app]. rewrite P_Path.wtr_PV.
  cbn [wstep] in D. destruct (ready _); [discriminate D|]. unfold lift in D. cbn [act] in D. repeat match type of D with match (match ?y with _ => _ end) with _ => _ end = _ => destruct y end; try discriminate D; injection D as _ <-; reflexivity.
Qed.
Lemma no_up_ups e : forallb not_up e = true -> ups (wtr e) = 0.
Proof. induction e as [|[[[]| | |]|x|ms] e IH]; cbn; intros H; auto; discriminate H. Qed.
Lemma hand_wtr {S} c (u : unpk S) s0 s a s1 e : pstep c u s0 s (PHand a) = Some (s1, e) -> wtr e = [].
Proof. intros H. cbn [pstep] in H. destruct a; try discriminate H; (destruct (M_Handle.step (hcfg c) (p_h s) _) as [[h es]|]; [|discriminate H]; injection H as _ <-; apply P_Path.seen_facts). Qed.
Lemma R_step {S1 S2} c1 c2 (u1 : unpk S1) i1 (u2 : unpk S2) i2 n s ta tb a s' ea eb :
  cfg_ok (pc c1) = true -> (bufsz (pc c1) < head_range (pc c1))%N -> clean_after_break (pc c1) u1 i1 ->
  cfg_ok (pc c2) = true -> (bufsz (pc c2) < head_range (pc c2))%N -> pc_batch c1 = false ->
  R c1 c2 u1 i1 u2 i2 n s ta tb -> tcall_ok c1 a -> tstep c1 c2 u1 i1 u2 i2 s a = Some (s', ea, eb) -> R c1 c2 u1 i1 u2 i2 n s' (ta ++ ea) (tb ++ eb).
Proof.
  intros A1 A2 A3 B1 B2 NB [(la & CA & RA) (lb & CB & RB) RS RU (t0 & K & CP)] CO H.
  pose proof (P_Path.Q_run c1 u1 i1 la A1 A2 A3 CA [] _ _ _ (P_Path.Q_init c1 u1 i1 n) RA) as QA. cbn [app] in QA.
  destruct a as [a|a| | |]; cbn [tstep] in H.
  - destruct (a_own a) eqn:O; [|discriminate H]. destruct (is_wup a && t_up s) eqn:U; [discriminate H|]. cbn [andb negb] in H. destruct (pstep c1 u1 i1 (t_a s) a) as [[x e]|] eqn:D; [|discriminate H].
    injection H as <- <- <-. rewrite app_nil_r.
    assert (RA' : exists l, Forall (call_ok c1) l /\ prun c1 u1 i1 (p_init u1 i1 n) l = Some (x, ta ++ e)).
    { exists (la ++ [a]). split; [apply Forall_app; split; [exact CA|constructor; [exact CO|constructor]]|exact (prun_snoc _ _ _ _ _ _ _ _ _ _ RA D)]. }
    destruct (is_wup a) eqn:W.
    + cbn [andb] in U. destruct (RU U) as (L & HH & HN & TC). destruct a as [ | | |w| | |]; try discriminate W. destruct w; try discriminate W.
      constructor; cbn [t_a t_b t_up t_c]; [exact RA'|eauto|rewrite P_Path.wtr_app, P_Wire.ups_app, RS, U, orb_true_r, (up_ups _ _ _ _ _ _ _ D); reflexivity|rewrite orb_true_r; discriminate|]. exists t0. split; [exact K|]. rewrite TC in *. unfold coupled in *. rewrite (up_step _ _ _ _ _ _ _ ta D). rewrite HN in CP. exact CP.
    + destruct (a_step _ _ _ _ _ _ _ _ QA NB O W D) as (E1 & E2 & E3).
      assert (HN : handled_now (ta ++ e) = handled_now ta) by (rewrite P_Path.hnow_app, E2, app_nil_r by exact E1; reflexivity).
      constructor; cbn [t_a t_b t_up t_c]; [exact RA'|eauto|rewrite P_Path.wtr_app, P_Wire.ups_app, RS, orb_false_r, (no_up_ups _ E1); apply Nat.add_0_r| |exists t0; split; [exact K|exact (coupled_a _ _ _ _ _ _ _ _ HN E3 CP)]].
      rewrite orb_false_r. intros U1. destruct (RU U1) as (L & HH & H1 & TC). destruct (a_before _ _ _ _ _ _ _ L HH W D). rewrite HN. auto.
  - destruct (b_own a) eqn:O; [|discriminate H]. destruct (pstep c2 u2 i2 (t_b s) a) as [[x e]|] eqn:D; [|discriminate H]. injection H as <- <- <-. rewrite app_nil_r.
    destruct (b_step _ _ _ _ _ _ _ _ _ O D K) as [K1 F1]. constructor; cbn [t_a t_b t_up t_c]; [eauto| |exact RS|exact RU|exists t0; split; [exact K1|exact (coupled_b _ _ _ _ _ _ _ F1 CP)]].
    exists (lb ++ [a]). split; [apply Forall_app; split; [exact CB|constructor; [destruct a; try exact I; discriminate O|constructor]]|exact (prun_snoc _ _ _ _ _ _ _ _ _ _ RB D)].
  - destruct (t_c s) as [ok|] eqn:TC; [discriminate H|]. destruct (at_hand (t_a s)) as [m|] eqn:AH; [|discriminate H]. destruct (lenN m <? size_range (pc c2))%N eqn:SZ; [|discriminate H]. apply N.ltb_lt in SZ.
    destruct (pstep c2 u2 i2 (t_b s) (PCall 0 (AOne m) false false)) as [[x e]|] eqn:D; [|discriminate H]. injection H as <- <- <-. rewrite app_nil_r. destruct CP as [-> CP].
    assert (UP : t_up s = false -> False). { intros U. destruct (RU U) as (_ & HH & _). unfold at_hand in AH. rewrite HH in AH. discriminate AH. }
    constructor; cbn [t_a t_b t_up t_c]; [eauto| |exact RS|intros U; destruct (UP U)|].
    + exists (lb ++ [PCall 0 (AOne m) false false]). split; [apply Forall_app; split; [exact CB|constructor; [exact SZ|constructor]]|exact (prun_snoc _ _ _ _ _ _ _ _ _ _ RB D)].
    + cbn [pstep] in D.
      assert (SAME : (x, e) = (t_b s, [PAsk (AOne m)]) -> exists t0, calm (w_s (p_w x)) t0 (labels (wtr (tb ++ e))) /\ coupled c2 (t_a s) (Some false) t0 ta (tb ++ e)).
      { intros X. injection X as -> ->. exists None. unfold coupled, frs. rewrite P_Path.wtr_app. cbn [wtr]. rewrite !app_nil_r. split; [exact K|]. exists m. split; [exact AH|]. exact CP. }
      destruct (send_msg (pc c2) (pc_nd c2) true (AOne m)) as [[[|] [|it its]]|] eqn:SM; try discriminate D; try (apply SAME; injection D as <- <-; reflexivity).
      destruct (P_Path.send_fine (pc c2) _ (AOne m) _ _ B1 B2 SZ SM) as [FR _]. cbn [arg_body] in FR. unfold wire_step in D. cbn [wstep inner] in D. unfold lift in D.
      destruct (act (pc_s c2) (w_s (p_w (t_b s))) (ACall 0 (it :: its) false false)) as [[y l]|] eqn:A; [|discriminate D]. injection D as <- <-. destruct K as [K1 K2 (t1 & T & M)].
      destruct (P_Echo.call0 _ _ _ _ _ _ _ A T) as (-> & T1 & S1' & _). exists (Some (FCheck (it :: its) false false)). unfold frs. rewrite P_Path.wtr_app, P_Wire.labels_app. cbn [app map wtr labels p_w w_s].
      split; [split; [apply L_Send.no_prior_app; split; [exact K1|exact I]|rewrite S1'; exact K2|eauto]|]. exists m. split; [exact AH|]. split; [reflexivity|]. split; [exact FR|]. split; [reflexivity|].
      unfold frs. rewrite P_Path.wtr_app, P_Wire.labels_app, P_Path.frames_app. cbn [wtr labels frames]. rewrite app_nil_r. exact CP.
  - destruct (t_c s) as [ok|] eqn:TC; [|discriminate H]. destruct (pstep c2 u2 i2 (t_b s) (PWire (WSend (AThread 0)))) as [[x e]|] eqn:D; [|discriminate H]. injection H as <- <- <-. rewrite app_nil_r.
    constructor; cbn [t_a t_b t_up t_c]; [eauto| |exact RS|intros U; destruct (RU U) as (_ & _ & _ & X); discriminate X|].
    + exists (lb ++ [PWire (WSend (AThread 0))]). split; [apply Forall_app; split; [exact CB|constructor; [exact I|constructor]]|exact (prun_snoc _ _ _ _ _ _ _ _ _ _ RB D)].
    + cbn [pstep is_call] in D. unfold wire_step in D. cbn [wstep inner] in D. unfold lift in D. destruct (act (pc_s c2) (w_s (p_w (t_b s))) (AThread 0)) as [[y l]|] eqn:A; [|discriminate D]. injection D as <- <-.
      destruct K as [K1 K2 (t1 & T & M)]. destruct CP as (m & AH & CP). cbn [p_w w_s]. unfold coupled, frs in *. rewrite P_Path.wtr_app, P_Wire.labels_app, P_Path.frames_app. cbn [app map wtr labels].
      cbn [act] in A. rewrite T in A. cbn [nth_error] in A. destruct t0 as [f|]; [|discriminate A].
      destruct f; try (exfalso; destruct CP as (X & _); exact X); cbn [exec] in A.
      * destruct (overflow || _) eqn:OV; cbn in A; injection A as <- <-; cbn [queued1 existsb orb].
        -- exists (Some (FEnq it prior)). split; [split; [apply L_Send.no_prior_app; split; [exact K1|exact I]|exact K2|exists t1; split; [cbn; rewrite T; reflexivity|exact M]]|]. exists m. split; [exact AH|]. cbn [frames]. rewrite app_nil_r, orb_false_r. exact CP.
        -- exists None. split; [split; [apply L_Send.no_prior_app; split; [exact K1|exact I]|exact K2|exists t1; split; [cbn; rewrite T; reflexivity|exact M]]|]. exists m. split; [exact AH|]. cbn [frames]. rewrite app_nil_r, orb_false_r.
           destruct CP as (_ & _ & -> & CP). rewrite app_nil_r. exact CP.
      * cbn in A. injection A as <- <-. destruct CP as (-> & FR & -> & CP). cbn [queued1 existsb orb].
        exists (Some FReady). split; [split; [apply L_Send.no_prior_app; split; [exact K1|exact I]|exact K2|exists t1; split; [cbn; rewrite T; reflexivity|exact M]]|]. exists m. split; [exact AH|]. cbn [frames]. split; [exact I|]. split; [reflexivity|].
        rewrite CP, FR, map_app. reflexivity.
      * cbn in A. injection A as <- <-. destruct CP as (_ & -> & CP). cbn [queued1 existsb orb].
        exists (if ready (w_s (p_w (t_b s))) then Some FLoad else None). split; [split; [apply L_Send.no_prior_app; split; [exact K1|exact I]|exact K2|exists t1; split; [cbn; rewrite T; reflexivity|exact M]]|].
        exists m. split; [exact AH|]. cbn [frames]. rewrite app_nil_r. destruct (ready _); [split; [exact I|split; [reflexivity|exact CP]]|exact CP].
      * assert (D2 : threads y = [None; t1] /\ strand y = strand (w_s (p_w (t_b s))) /\ l = LTau) by (destruct (flag _); cbn in A; injection A as <- <-; cbn; rewrite T; auto). clear A. destruct D2 as (T1 & S1' & ->).
        destruct CP as (_ & -> & CP). cbn [queued1 existsb orb]. exists None. split; [split; [apply L_Send.no_prior_app; split; [exact K1|exact I]|rewrite S1'; exact K2|eauto]|]. exists m. split; [exact AH|]. cbn [frames]. rewrite app_nil_r. exact CP.
  - destruct (t_c s) as [ok|] eqn:TC; [|discriminate H]. destruct (nth_error _ 0) as [[f|]|] eqn:TH; try discriminate H. destruct (pstep c1 u1 i1 (t_a s) (PHand (M_Handle.HRet ok))) as [[x e]|] eqn:D; [|discriminate H]. injection H as <- <- <-. rewrite app_nil_r.
    constructor; cbn [t_a t_b t_up t_c]; [|eauto|rewrite P_Path.wtr_app, P_Wire.ups_app, RS, (hand_wtr _ _ _ _ _ _ _ D); apply Nat.add_0_r|intros U; destruct (RU U) as (_ & _ & _ & X); discriminate X|].
    + exists (la ++ [PHand (M_Handle.HRet ok)]). split; [apply Forall_app; split; [exact CA|constructor; [exact I|constructor]]|exact (prun_snoc _ _ _ _ _ _ _ _ _ _ RA D)].
    + exists t0. split; [exact K|]. destruct K as [K1 K2 (t1 & T & M)]. rewrite T in TH. cbn in TH. injection TH as ->. destruct CP as (m & AH & CP). unfold coupled. split; [reflexivity|]. rewrite CP. f_equal.
      unfold at_hand in AH. destruct (M_Handle.h_d (p_h (t_a s))) eqn:HD; try discriminate AH. destruct (M_Handle.h_held (p_h (t_a s))) as [k|] eqn:HM; [|discriminate AH]. injection AH as <-.
      cbn [pstep] in D. destruct (M_Handle.step (hcfg c1) (p_h (t_a s)) (M_Handle.HRet ok)) as [[h es]|] eqn:ST; [|discriminate D]. injection D as <- <-. destruct (P_Path.seen_facts (p_tab (t_a s)) es) as (_ & _ & F3 & F4).
      rewrite P_Path.hnow_app, F4 by exact F3. unfold M_Handle.step in ST. rewrite HD in ST. cbn [hcfg M_Handle.batch] in ST. rewrite NB in ST. unfold M_Handle.held in ST. rewrite HM in ST.
      destruct ok; (assert (E : es = [M_Handle.EHandled [k]] \/ es = []) by (destruct (M_Handle.h_i (p_h (t_a s))); injection ST as _ <-; auto)); destruct (M_Handle.h_i (p_h (t_a s))); injection ST as _ <-; reflexivity.
Qed.
Lemma R0 {S1 S2} c1 c2 (u1 : unpk S1) i1 (u2 : unpk S2) i2 n : R c1 c2 u1 i1 u2 i2 n (talk0 u1 i1 u2 i2 n) [] [].
Proof.
  constructor; cbn [talk0 t_a t_b t_up t_c]; [exists []; split; [constructor|reflexivity]|exists []; split; [constructor|reflexivity]|reflexivity|intros _; repeat split|]. exists None. split; [|split; reflexivity].
  constructor; [exact I|constructor|exists None; split; [reflexivity|exact I]].
Qed.
Lemma R_run {S1 S2} c1 c2 (u1 : unpk S1) i1 (u2 : unpk S2) i2 n l :
  cfg_ok (pc c1) = true -> (bufsz (pc c1) < head_range (pc c1))%N -> clean_after_break (pc c1) u1 i1 ->
  cfg_ok (pc c2) = true -> (bufsz (pc c2) < head_range (pc c2))%N -> pc_batch c1 = false ->
  forall s ta tb s' ea eb, R c1 c2 u1 i1 u2 i2 n s ta tb -> Forall (tcall_ok c1) l -> truns c1 c2 u1 i1 u2 i2 s l = Some (s', ea, eb) -> R c1 c2 u1 i1 u2 i2 n s' (ta ++ ea) (tb ++ eb).
Proof.
  intros A1 A2 A3 B1 B2 NB. induction l as [|a l IH]; intros s ta tb s' ea eb RR F H; cbn [truns] in H; [injection H as <- <- <-; rewrite !app_nil_r; exact RR|].
  inversion F; subst. destruct (tstep c1 c2 u1 i1 u2 i2 s a) as [[[s1 x1] y1]|] eqn:D; [|discriminate H]. destruct (truns c1 c2 u1 i1 u2 i2 s1 l) as [[[s2 x2] y2]|] eqn:Q; [|discriminate H]. injection H as <- <- <-.
  rewrite !app_assoc. exact (IH s1 _ _ s2 x2 y2 (R_step _ _ _ _ _ _ _ _ _ _ _ _ _ _ A1 A2 A3 B1 B2 NB RR H2 D) H3 Q).
Qed.
(** what the callback has sent and not yet reported as handled is counted as handled *)
Lemma ahead {S1 S2} c1 c2 (u1 : unpk S1) i1 (u2 : unpk S2) i2 n s ta tb : pc_batch c1 = false -> R c1 c2 u1 i1 u2 i2 n s ta tb ->
  exists l s1 e, Forall (call_ok c1) l /\ prun c1 u1 i1 (p_init u1 i1 n) l = Some (s1, ta ++ e) /\ wtr e = [] /\ asked e = [] /\ frs tb = map (frm (pc c2)) (handled_now (ta ++ e)).
Proof.
  intros NB [(la & CA & RA) _ _ _ (t0 & _ & CP)].
  assert (NOW : frs tb = map (frm (pc c2)) (handled_now ta) -> exists l s1 e, Forall (call_ok c1) l /\ prun c1 u1 i1 (p_init u1 i1 n) l = Some (s1, ta ++ e) /\ wtr e = [] /\ asked e = [] /\ frs tb = map (frm (pc c2)) (handled_now (ta ++ e))).
  { intros E. exists la, (t_a s), []. rewrite app_nil_r. auto. }
  destruct (t_c s) as [ok|]; [|apply NOW; apply CP]. destruct CP as (m & AH & CP).
  assert (NEXT : frs tb = map (frm (pc c2)) (handled_now ta ++ [m]) -> exists l s1 e, Forall (call_ok c1) l /\ prun c1 u1 i1 (p_init u1 i1 n) l = Some (s1, ta ++ e) /\ wtr e = [] /\ asked e = [] /\ frs tb = map (frm (pc c2)) (handled_now (ta ++ e))).
  { intros E. unfold at_hand in AH. destruct (M_Handle.h_d (p_h (t_a s))) eqn:HD; try discriminate AH. destruct (M_Handle.h_held (p_h (t_a s))) as [k|] eqn:HM; [|discriminate AH]. injection AH as <-.
    assert (D : exists h, M_Handle.step (hcfg c1) (p_h (t_a s)) (M_Handle.HRet true) = Some (h, [M_Handle.EHandled [k]])).
    { unfold M_Handle.step. rewrite HD. cbn [hcfg M_Handle.batch]. rewrite NB. unfold M_Handle.held. rewrite HM. destruct (M_Handle.h_i (p_h (t_a s))); eauto. }
    destruct D as (h & D). assert (P : pstep c1 u1 i1 (t_a s) (PHand (M_Handle.HRet true)) = Some (mk_p (p_w (t_a s)) (p_net (t_a s)) (p_rx (t_a s)) (p_live (t_a s)) (p_tab (t_a s)) h, [PHandled [body (p_tab (t_a s)) k]])) by (cbn [pstep]; rewrite D; reflexivity).
    exists (la ++ [PHand (M_Handle.HRet true)]). do 2 eexists. split; [apply Forall_app; split; [exact CA|constructor; [exact I|constructor]]|]. split; [exact (prun_snoc _ _ _ _ _ _ _ _ _ _ RA P)|]. split; [reflexivity|]. split; [reflexivity|].
    rewrite P_Path.hnow_snoc. exact E. }
  destruct t0 as [[]|]; try (apply NEXT; apply CP); try (apply NOW; apply CP). destruct ok; [exact (NEXT CP)|]. rewrite app_nil_r in CP. exact (NOW CP).
Qed.
Lemma filter_twice {A} (f : A -> bool) l : filter f (filter f l) = filter f l.
Proof. induction l as [|x l IH]; [reflexivity|]. cbn [filter]. destruct (f x) eqn:E; [cbn [filter]; rewrite E, IH; reflexivity|exact IH]. Qed.
Lemma shown_stripped c bs : stripped c = true -> S_Frame.shown c bs = filter S_Frame.nonempty bs.
Proof. intros ST. unfold S_Frame.shown. rewrite ST. apply map_id. Qed.
Lemma map_frm_inj c a : forall b, map (frm c) a = map (frm c) b -> a = b.
Proof. induction a as [|x a IH]; intros [|y b] H; try discriminate H; [reflexivity|]. injection H as H1 H2. f_equal; [exact (P_Path.frame_inj _ _ _ H1)|exact (IH _ H2)]. Qed.

(** In every execution of client and server, what the client got back is the beginning of what it sent. *)
Theorem C158_exact : forall (S1 S2 : Type) c1 c2 (u1 : unpk S1) i1 (u2 : unpk S2) i2 n l s ta tb,
  cfg_ok (pc c1) = true -> (bufsz (pc c1) < head_range (pc c1))%N -> receives_frames (pc c1) u1 i1 -> clean_after_break (pc c1) u1 i1 -> stripped (pc c1) = true -> pc_batch c1 = false ->
  cfg_ok (pc c2) = true -> (bufsz (pc c2) < head_range (pc c2))%N -> receives_frames (pc c2) u2 i2 -> clean_after_break (pc c2) u2 i2 -> stripped (pc c2) = true ->
  Forall (tcall_ok c1) l -> truns c1 c2 u1 i1 u2 i2 (talk0 u1 i1 u2 i2 n) l = Some (s, ta, tb) ->
  no_prior (labels (wtr ta)) -> ~ In WGlitch (cur (wtr ta)) -> ~ In WGlitch (cur (wtr tb)) -> ups (wtr tb) <= 1 -> echoes (pc c1) ta tb.
Proof.
  intros S1 S2 c1 c2 u1 i1 u2 i2 n l s ta tb A1 A2 A3 A4 A5 NB B1 B2 B3 B4 B5 CO H NP GA GB UB.
  pose proof (R_run c1 c2 u1 i1 u2 i2 n l A1 A2 A4 B1 B2 NB _ [] [] _ _ _ (R0 c1 c2 u1 i1 u2 i2 n) CO H) as RR. cbn [app] in RR.
  destruct (ahead _ _ _ _ _ _ _ _ _ _ NB RR) as (la & s1 & e & CA & RA & E1 & E2 & EF). destruct RR as [_ (lb & CB & RB) RS _ (t0 & [NPB _ _] & _)].
  assert (WT : wtr (ta ++ e) = wtr ta) by (rewrite P_Path.wtr_app, E1; apply app_nil_r).
  assert (UA : ups (wtr ta) <= 1) by (rewrite RS; destruct (t_up s); repeat constructor).
  destruct (P_Path.C133_links_partial _ c1 u1 i1 n la s1 (ta ++ e) A1 A2 A3 A4 CA RA) as (b1 & n1 & f1 & AC & HN & _ & Z1); rewrite ?WT; auto.
  destruct (P_Path.C133_links_partial _ c2 u2 i2 2 lb (t_b s) tb B1 B2 B3 B4 CB RB GB NPB (or_introl UB)) as (b2 & n2 & f2 & [AC2 _] & HN2 & _ & Z2).
  rewrite WT in Z1. rewrite (Z1 UA) in AC. rewrite (Z2 UB) in AC2. cbn [app] in AC, AC2. unfold frs in EF. rewrite EF in AC2. apply map_frm_inj in AC2.
  rewrite (shown_stripped _ _ A5) in HN. rewrite (shown_stripped _ _ B5) in HN2.
  exists (n1 ++ f1), (filter S_Frame.nonempty f2 ++ filter S_Frame.nonempty f1). split.
  - destruct AC as [X Y]. rewrite WT in X. rewrite P_Path.asked_app, E2, app_nil_r in Y. split; assumption.
  - rewrite HN2, app_assoc, <- filter_app, <- AC2, HN, filter_twice, <- filter_app. reflexivity.
Qed.
Print Assumptions C158_exact.

(** ** nothing more to do *)
Lemma rest_callback {S1 S2} c1 c2 (u1 : unpk S1) i1 (u2 : unpk S2) i2 n s ta tb : R c1 c2 u1 i1 u2 i2 n s ta tb -> t_rest c1 c2 u1 i1 u2 i2 s ->
  cfg_ok (pc c2) = true -> (bufsz (pc c2) < head_range (pc c2))%N -> (forall b, at_hand (t_a s) = Some b -> lenN b < size_range (pc c2))%N -> pc_batch c1 = false -> t_c s = None /\ at_hand (t_a s) = None.
Proof.
  intros [_ _ _ _ (t0 & [_ _ (t1 & T & _)] & CP)] RE B1 B2 SZ NB. destruct (t_c s) as [ok|] eqn:TC.
  - exfalso. destruct CP as (m & AH & CP). pose proof (RE TThread eq_refl) as R1. pose proof (RE TEnd eq_refl) as R2. cbn [tstep] in R1, R2. rewrite TC in R1, R2. rewrite T in R2. cbn [nth_error] in R2.
    destruct t0 as [f|].
    + cbn [pstep is_call] in R1. unfold wire_step in R1. cbn [wstep inner act] in R1. rewrite T in R1. cbn [nth_error] in R1. destruct (exec _ _ _ _) as [[? ?] ?]. discriminate R1.
    + unfold at_hand in AH. destruct (M_Handle.h_d (p_h (t_a s))) eqn:HD; try discriminate AH. cbn [pstep] in R2. unfold M_Handle.step in R2. rewrite HD in R2. cbn [hcfg M_Handle.batch] in R2. rewrite NB in R2.
      destruct ok, (M_Handle.h_i (p_h (t_a s))); discriminate R2.
  - split; [reflexivity|]. destruct (at_hand (t_a s)) as [m|] eqn:AH; [exfalso|reflexivity]. destruct CP as [-> _]. pose proof (RE TBegin eq_refl) as R1. cbn [tstep] in R1. rewrite TC, AH in R1. specialize (SZ m eq_refl).
    assert (X : (lenN m <? size_range (pc c2))%N = true) by (apply N.ltb_lt; exact SZ). rewrite X in R1. cbn [pstep] in R1.
    destruct (L_Packer.send_msg_ok (pc c2) (pc_nd c2) (AOne m) B1 B2 SZ) as (ok & items & EI & _). rewrite EI in R1. destruct ok, items as [|it its]; try discriminate R1.
    unfold wire_step in R1. cbn [wstep inner act] in R1. rewrite T in R1. cbn [nth_error lift] in R1. discriminate R1.
Qed.
Lemma in_prefix c bs k x : In x (S_Frame.complete c bs k) -> In x bs.
Proof. destruct (P_Path.complete_prefix c bs k) as (j & ->). intros I. rewrite <- (firstn_skipn j bs). apply in_or_app. left. exact I. Qed.
(** When client and server have nothing more to do and the link works in both directions, everything came back. *)
Theorem C158_at_rest : forall (S1 S2 : Type) c1 c2 (u1 : unpk S1) i1 (u2 : unpk S2) i2 n l s ta tb,
  cfg_ok (pc c1) = true -> (bufsz (pc c1) < head_range (pc c1))%N -> receives_frames (pc c1) u1 i1 -> never_stops u1 i1 -> clean_after_break (pc c1) u1 i1 -> stripped (pc c1) = true -> pc_batch c1 = false -> (0 < pc_lim c1)%N ->
  cfg_ok (pc c2) = true -> (bufsz (pc c2) < head_range (pc c2))%N -> receives_frames (pc c2) u2 i2 -> never_stops u2 i2 -> clean_after_break (pc c2) u2 i2 -> stripped (pc c2) = true -> pc_batch c2 = false -> (0 < pc_lim c2)%N ->
  Forall (tcall_ok c1) l -> truns c1 c2 u1 i1 u2 i2 (talk0 u1 i1 u2 i2 n) l = Some (s, ta, tb) ->
  no_prior (labels (wtr ta)) -> ~ In WGlitch (cur (wtr ta)) -> ~ In WGlitch (cur (wtr tb)) -> ups (wtr tb) <= 1 ->
  t_rest c1 c2 u1 i1 u2 i2 s -> works (t_a s) ta -> works (t_b s) tb -> all_echoed (pc c1) ta tb.
Proof.
  intros S1 S2 c1 c2 u1 i1 u2 i2 n l s ta tb A1 A2 A3 AN A4 A5 NB AL B1 B2 B3 BN B4 B5 NB2 BL CO H NP GA GB UB RE (WA1 & WA2 & WA3 & WA4) (WB1 & WB2 & WB3 & WB4).
  pose proof (R_run c1 c2 u1 i1 u2 i2 n l A1 A2 A4 B1 B2 NB _ [] [] _ _ _ (R0 c1 c2 u1 i1 u2 i2 n) CO H) as RR. cbn [app] in RR. pose proof RR as RR0.
  destruct RR as [(la & CA & RA) (lb & CB & RB) RS _ (t0 & [NPB _ (t1 & T & _)] & CP)].
  assert (UA : ups (wtr ta) <= 1) by (rewrite RS; destruct (t_up s); repeat constructor).
  pose proof (P_Path.Q_run c1 u1 i1 la A1 A2 A4 CA [] _ _ _ (P_Path.Q_init c1 u1 i1 n) RA) as QA. cbn [app] in QA.
  assert (SZ : forall b, at_hand (t_a s) = Some b -> (lenN b < size_range (pc c2))%N).
  { intros b AH. destruct (P_Path.q_h _ _ _ _ _ QA) as (th & HI). unfold at_hand in AH. destruct (M_Handle.h_d (p_h (t_a s))); try discriminate AH. destruct (M_Handle.h_held (p_h (t_a s))) as [k|] eqn:HM; [|discriminate AH]. injection AH as <-.
    pose proof (in_hand_body _ _ _ _ _ HI HM) as LT. pose proof (nth_In _ [] LT) as IN. unfold body. set (x := nth (fst k) (p_tab (t_a s)) []) in *. clearbody x.
    assert (EK : concat (handed (labels (former (wtr ta)))) = concat (firstn 0 (frames (labels (wtr ta))))) by (rewrite (P_Wire.z_first _ _ (P_Path.q_z _ _ _ _ _ QA) UA); reflexivity).
    destruct (P_Path.Q_received _ _ _ _ _ A3 QA GA NP 0 EK) as (bodies & _ & _ & FB & _ & _ & j & EN & _). rewrite EN in IN. unfold S_Frame.expected in IN. rewrite (shown_stripped _ _ A5) in IN. apply filter_In in IN as [IN _].
    apply in_prefix in IN. cbn [skipn] in IN. rewrite forallb_forall in FB. specialize (FB _ IN). unfold S_Frame.fits in FB. apply andb_true_iff in FB as [FB _]. apply N.leb_le in FB.
    unfold cfg_ok in A1, B1. apply andb_true_iff in A1 as [A1 _]. apply andb_true_iff in A1 as [_ A1]. apply N.leb_le in A1. apply andb_true_iff in B1 as [_ B1]. apply orb_true_iff in B1. unfold size_range.
    assert (BIG : (104857600 < npos (pc c2) + 1)%N) by (destruct B1 as [B1|B1]; apply N.eqb_eq in B1; rewrite B1; reflexivity).
    apply (N.le_lt_trans _ 104857600); [|exact BIG]. apply (N.le_trans _ (bufsz (pc c1))); [|exact A1]. apply (N.le_trans _ (head_len (pc c1) + lenN x)); [|exact FB]. rewrite N.add_comm. apply N.le_add_r. }
  destruct (rest_callback _ _ _ _ _ _ _ _ _ _ RR0 RE B1 B2 SZ NB) as [TC AH]. rewrite TC in CP. destruct CP as [-> EF].
  assert (RA1 : at_rest c1 u1 i1 (t_a s)).
  { intros a O. assert (W : is_wup a = false) by (destruct a as [| | |w| | |]; try reflexivity; destruct w; try reflexivity; discriminate O).
    destruct (a_own a) eqn:OW.
    - specialize (RE (TA a) O). cbn [tstep] in RE. rewrite OW, W in RE. cbn [andb negb] in RE. destruct (pstep c1 u1 i1 (t_a s) a) as [[? ?]|]; [discriminate RE|reflexivity].
    - destruct a as [| | | | | |a]; try discriminate OW. destruct a; try discriminate OW; try discriminate O. destruct (P_Path.q_h _ _ _ _ _ QA) as (th & [[(_ & _ & _ & W4) _] _ _ _ _]).
      unfold at_hand in AH. cbn [pstep]. unfold M_Handle.step. destruct (M_Handle.h_d (p_h (t_a s))) eqn:HD; try (destruct (M_Handle.h_i (p_h (t_a s))); reflexivity).
      exfalso. destruct W4 as [_ W4]. specialize (W4 NB). destruct (M_Handle.h_held (p_h (t_a s))); [discriminate AH|discriminate W4]. }
  assert (RB1 : at_rest c2 u2 i2 (t_b s)).
  { intros a O. destruct (b_own a) eqn:OW.
    - specialize (RE (TB a) O). cbn [tstep] in RE. rewrite OW in RE. destruct (pstep c2 u2 i2 (t_b s) a) as [[? ?]|]; [discriminate RE|reflexivity].
    - destruct a as [| | |w| | |]; try discriminate O; try discriminate OW. destruct w as [a| | | | | | | |]; try discriminate OW; try discriminate O. destruct a as [|i| | | | | | | |]; try discriminate OW; try discriminate O.
      cbn [b_own] in OW. cbn [pstep is_call]. unfold wire_step. cbn [wstep inner act]. rewrite T. destruct i as [|[|i]]; [reflexivity|discriminate OW|]. cbn [nth_error]. destruct i; reflexivity. }
  destruct (P_Path.C134_all_handled_at_rest _ c1 u1 i1 n la (t_a s) ta A1 A2 A3 AN A4 NB AL CA RA) as [_ DA]. destruct (DA RA1 WA1 WA2 WA3 WA4 GA NP (or_introl UA)) as (b1 & n1 & AC & HN & _ & Z1). clear DA.
  destruct (P_Path.C134_all_handled_at_rest _ c2 u2 i2 2 lb (t_b s) tb B1 B2 B3 BN B4 NB2 BL CB RB) as [_ DB]. destruct (DB RB1 WB1 WB2 WB3 WB4 GB NPB (or_introl UB)) as (b2 & n2 & [AC2 _] & HN2 & _ & Z2). clear DB.
  rewrite (Z1 UA) in AC. rewrite (Z2 UB) in AC2. cbn [app] in AC, AC2. unfold frs in EF. rewrite EF in AC2. apply map_frm_inj in AC2. rewrite (shown_stripped _ _ A5) in HN. rewrite (shown_stripped _ _ B5) in HN2.
  exists n1. split; [exact AC|]. rewrite HN2, <- AC2, HN, filter_twice. reflexivity.
Qed.
Print Assumptions C158_at_rest.
(** with the library's default unpacker on both sides *)
Theorem C158_default : forall c1 c2 mem1 mem2 n l s ta tb,
  cfg_ok (pc c1) = true -> (bufsz (pc c1) < head_range (pc c1))%N -> stripped (pc c1) = true -> pc_batch c1 = false -> lenN mem1 = bufsz (pc c1) ->
  cfg_ok (pc c2) = true -> (bufsz (pc c2) < head_range (pc c2))%N -> stripped (pc c2) = true -> lenN mem2 = bufsz (pc c2) ->
  let u1 := M_Unpacker.unpacker (pc c1) in let i1 := M_Unpacker.unp_init (pc c1) mem1 in let u2 := M_Unpacker.unpacker (pc c2) in let i2 := M_Unpacker.unp_init (pc c2) mem2 in
  Forall (tcall_ok c1) l -> truns c1 c2 u1 i1 u2 i2 (talk0 u1 i1 u2 i2 n) l = Some (s, ta, tb) ->
  no_prior (labels (wtr ta)) -> ~ In WGlitch (cur (wtr ta)) -> ~ In WGlitch (cur (wtr tb)) -> ups (wtr tb) <= 1 ->
  echoes (pc c1) ta tb /\
  (pc_batch c2 = false -> (0 < pc_lim c1)%N -> (0 < pc_lim c2)%N -> t_rest c1 c2 u1 i1 u2 i2 s -> works (t_a s) ta -> works (t_b s) tb -> all_echoed (pc c1) ta tb).
Proof.
  intros c1 c2 mem1 mem2 n l s ta tb A1 A2 A3 A4 A5 B1 B2 B3 B5 u1 i1 u2 i2 CO H NP GA GB UB.
  assert (RA : receives_frames (pc c1) u1 i1) by (apply P_Unpacker.C01_unpacker_delivers_exactly; assumption). assert (NA : never_stops u1 i1) by (apply P_Unpacker.C02_unpacker_never_stops; assumption). assert (CA : clean_after_break (pc c1) u1 i1) by (apply P_Unpacker.C60_unpacker_clean_after_break; assumption).
  assert (RB : receives_frames (pc c2) u2 i2) by (apply P_Unpacker.C01_unpacker_delivers_exactly; assumption). assert (NB : never_stops u2 i2) by (apply P_Unpacker.C02_unpacker_never_stops; assumption). assert (CB : clean_after_break (pc c2) u2 i2) by (apply P_Unpacker.C60_unpacker_clean_after_break; assumption).
  split; [exact (C158_exact _ _ c1 c2 u1 i1 u2 i2 n l s ta tb A1 A2 RA CA A3 A4 B1 B2 RB CB B3 CO H NP GA GB UB)|].
  intros NB2 L1 L2 RE WA WB. exact (C158_at_rest _ _ c1 c2 u1 i1 u2 i2 n l s ta tb A1 A2 RA NA CA A3 A4 L1 B1 B2 RB NB CB B3 NB2 L2 CO H NP GA GB UB RE WA WB).
Qed.
Print Assumptions C158_default.

(** examples: messages of at most 9 bytes, ext::unpacker on both sides *)
Import P_Path (ex_c, ex_u, ex_0, go, send_one, handle1, abcd, xy).
Definition wrote (k : nat) (n : nat) : list pact := go ([WTake k; WDone; WSend AUserRet] ++ repeat (WSend AStrand) n).
Definition offer : list pact := map PHand [M_Handle.HMove; M_Handle.HTest; M_Handle.HPost; M_Handle.HRun; M_Handle.HMark].
Definition callback : list tact := [TBegin] ++ repeat TThread 4 ++ map TB (go ([WSend ATask] ++ repeat (WSend AStrand) 3)) ++ [TEnd] ++ map TA (map PHand [M_Handle.HClear; M_Handle.HRepost; M_Handle.HRun]).
Definition ex_up : list tact := map TA (go P_Wire.conn) ++ map TB (go ([WUp 1; WSend (AThread 1); WSend (AThread 1); WSend ATask] ++ repeat (WSend AStrand) 5)).
Definition ex_there (b : list byte) : list tact := map TA (send_one (AOne b) ++ wrote 2 4 ++ wrote (length b) 6 ++ [PRead (2 + length b)] ++ offer).
Definition ex_back (b : list byte) : list tact := map TB (wrote 2 4 ++ wrote (length b) 6 ++ [PRead (2 + length b)] ++ handle1).
Definition ex_rest : list tact := ex_up ++ ex_there abcd ++ callback ++ ex_back abcd ++ ex_there xy ++ callback ++ ex_back xy.
(** the second message is in the callback, its bytes are on the way *)
Definition ex_some : list tact := ex_up ++ ex_there abcd ++ callback ++ ex_back abcd ++ ex_there xy ++ [TBegin] ++ repeat TThread 4 ++ map TB (go ([WSend ATask] ++ repeat (WSend AStrand) 3 ++ [WTake 1]) ++ [PRead 1]).
Definition glitch (t : list pev) : bool := existsb (fun v => match v with WGlitch => true | _ => false end) (wtr t).
Example C158_exact_example : exists s ta tb, truns (ex_c 0) (ex_c 0) ex_u ex_0 ex_u ex_0 (talk0 ex_u ex_0 ex_u ex_0 1) ex_some = Some (s, ta, tb) /\
  asked ta = [abcd; xy] /\ handled_now ta = [abcd] /\ handled_now tb = [abcd] /\ t_c s = Some true /\ ups (wtr tb) = 1 /\ glitch ta = false /\ glitch tb = false /\ no_prior (labels (wtr ta)) /\
  stripped (pc (ex_c 0)) = true /\ pc_batch (ex_c 0) = false /\ Forall (tcall_ok (ex_c 0)) ex_some.
Proof. do 3 eexists. split; [vm_compute; reflexivity|]. do 10 (split; [vm_compute; reflexivity || (vm_compute; repeat constructor)|]). unfold ex_some. rewrite !Forall_app. repeat split; repeat constructor. Qed.
Example C158_at_rest_example : exists s ta tb, truns (ex_c 0) (ex_c 0) ex_u ex_0 ex_u ex_0 (talk0 ex_u ex_0 ex_u ex_0 1) ex_rest = Some (s, ta, tb) /\
  asked ta = [abcd; xy] /\ handled_now tb = [abcd; xy] /\ ups (wtr tb) = 1 /\ glitch ta = false /\ glitch tb = false /\ no_prior (labels (wtr ta)) /\ works (t_a s) ta /\ works (t_b s) tb /\
  t_rest (ex_c 0) (ex_c 0) ex_u ex_0 ex_u ex_0 s.
Proof.
  do 3 eexists. split; [vm_compute; reflexivity|]. do 8 (split; [vm_compute; reflexivity || (vm_compute; repeat split)|]).
  intros [a|a| | |] O; try reflexivity; cbn [t_onward] in O.
  - destruct a as [i x p ovf|x p ovf|i|a|k| |a]; try discriminate O.
    + destruct a as [a|k| | | | | | |]; try discriminate O; [|reflexivity|reflexivity]. destruct a as [i it p ovf|i| | | |it p ovf| |k ok|i|]; try discriminate O; try reflexivity. destruct i as [|[|i]]; reflexivity.
    + destruct k; reflexivity.
    + destruct a; try discriminate O; reflexivity.
  - destruct a as [i x p ovf|x p ovf|i|a|k| |a]; try discriminate O.
    + destruct a as [a|k| | | | | | |]; try discriminate O; [|reflexivity|reflexivity]. destruct a as [i it p ovf|i| | | |it p ovf| |k ok|i|]; try discriminate O; try reflexivity. destruct i as [|[|i]]; reflexivity.
    + destruct k; reflexivity.
    + destruct a; try discriminate O; reflexivity.
Qed.
