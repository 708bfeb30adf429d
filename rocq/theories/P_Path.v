(** C133: what the receiving application handles is what was sent, in order, each message once. C134: everything that was accepted is
    handled, if the link goes on. *)
From Coq Require Import List NArith Bool Arith Lia Permutation.
From Verif Require Import M_Bytes M_Config M_Packer S_Packer M_Queue M_Send S_Send M_Wire S_Wire M_Rx S_Rx M_Path S_Path.
From Verif Require M_Unpacker M_Flex M_NonCopy P_Unpacker S_Frame M_Handle S_Handle P_Handle L_Bytes L_Send L_Rx L_Frame L_Packer P_Wire.
Import ListNotations.
Open Scope nat_scope.

Notation cnt := (count_occ (list_eq_dec Byte.byte_eq_dec)).
Notation frm := S_Frame.frame.

(** ** traces *)
Lemma wtr_app a b : wtr (a ++ b) = wtr a ++ wtr b.
Proof. induction a as [|[]a IH]; cbn [wtr app]; rewrite ?IH; reflexivity. Qed.
Lemma asked_app a b : asked (a ++ b) = asked a ++ asked b.
Proof. induction a as [|[]a IH]; cbn [asked app]; rewrite ?IH; reflexivity. Qed.
Lemma wtr_PV vs : wtr (map PV vs) = vs.
Proof. induction vs as [|v vs IH]; cbn [wtr map]; rewrite ?IH; reflexivity. Qed.
Lemma asked_PV vs : asked (map PV vs) = [].
Proof. induction vs as [|v vs IH]; cbn [asked map]; rewrite ?IH; reflexivity. Qed.
Definition not_up (e : pev) : bool := match e with PV v => negb (P_Wire.is_up v) | _ => true end.
Fixpoint hs (t : list pev) : list (list byte) := match t with [] => [] | PHandled ms :: t' => ms ++ hs t' | _ :: t' => hs t' end.
Lemma hnow_snoc t e : handled_now (t ++ [e]) = match e with PV (WL LUp) => [] | PHandled ms => handled_now t ++ ms | _ => handled_now t end.
Proof. unfold handled_now. rewrite fold_left_app. reflexivity. Qed.
Lemma hnow_app b : forall a, forallb not_up b = true -> handled_now (a ++ b) = handled_now a ++ hs b.
Proof.
  induction b as [|e b IH]; intros a H; [cbn [hs]; rewrite !app_nil_r; reflexivity|]. cbn [forallb] in H. apply andb_true_iff in H as [H1 H2].
  change (a ++ e :: b) with (a ++ [e] ++ b). rewrite app_assoc, IH, hnow_snoc by exact H2. destruct e as [[[]| | |]| |ms]; cbn [hs]; rewrite ?app_assoc; try reflexivity. discriminate.
Qed.
Lemma hs_PV vs : hs (map PV vs) = [].
Proof. induction vs as [|v vs IH]; cbn [hs map]; rewrite ?IH; reflexivity. Qed.
Lemma not_up_PV vs : forallb not_up (map PV vs) = forallb (fun e => negb (P_Wire.is_up e)) vs.
Proof. induction vs as [|v vs IH]; cbn [forallb map]; rewrite ?IH; reflexivity. Qed.
Lemma on_wire_ok vs : on_wire vs = wire vs.
Proof. induction vs as [|[l|d| |] vs IH]; unfold on_wire in *; cbn [map concat wire app]; rewrite ?IH; reflexivity. Qed.
Lemma frames_app a b : frames (a ++ b) = frames a ++ frames b.
Proof. induction a as [|[] a IH]; cbn [frames app]; rewrite ?IH; reflexivity. Qed.
Lemma seen_facts tab es : wtr (seen tab es) = [] /\ asked (seen tab es) = [] /\ forallb not_up (seen tab es) = true /\ hs (seen tab es) = map (body tab) (S_Handle.handled es).
Proof.
  induction es as [|[ms|m|ms|ms|ms] es (I1 & I2 & I3 & I4)]; cbn [seen wtr asked forallb not_up hs S_Handle.handled map]; auto.
  rewrite map_app, I4. auto.
Qed.

(** ** the calls under way *)
Definition its (f : frame) : list (list item) := match f with FCheck it _ _ | FEnq it _ => [it] | _ => [] end.
Definition itso (o : option frame) : list (list item) := match o with Some f => its f | None => [] end.
Definition pend (s : sstate) : list (list item) := flat_map itso (threads s) ++ flat_map its (strand s).
Definition enq (l : label) : list (list item) := match l with LEnq _ it => [it] | _ => [] end.
Definition call (a : action) : list (list item) := match a with ACall _ it _ _ | ACallS it _ _ => [it] | _ => [] end.
Lemma put_items i x y l : nth_error l i = Some y -> Permutation (flat_map itso (put i x l) ++ itso y) (flat_map itso l ++ itso x).
Proof.
  revert l. induction i as [|i IH]; intros [|z l] E; cbn [nth_error] in E; try discriminate.
  - assert (z = y) by congruence. subst. unfold put. cbn [firstn skipn app flat_map]. rewrite <- !app_assoc. rewrite Permutation_app_comm. rewrite <- app_assoc. rewrite !app_assoc. apply Permutation_app_tail. apply Permutation_app_comm.
  - change (put (S i) x (z :: l)) with (z :: put i x l). cbn [flat_map]. rewrite <- !app_assoc. apply Permutation_app_head. exact (IH l E).
Qed.

Lemma exec_items c here s f s1 nxt l : exec c here s f = (s1, nxt, l) ->
  threads s1 = threads s /\ strand s1 = strand s /\ exists dropped, its f = itso nxt ++ enq l ++ dropped.
Proof.
  intros E. destruct f; cbn [exec] in E.
  - inversion E; subst. repeat split. exists []. reflexivity.
  - destruct (_ || _); inversion E; subst; repeat split; [exists []|exists [it]]; reflexivity.
  - inversion E; subst. repeat split. exists []. reflexivity.
  - inversion E; subst. repeat split. exists []. destruct (ready s1); reflexivity.
  - destruct (flag s); [|destruct here]; inversion E; subst; repeat split; exists []; reflexivity.
  - destruct (_ && _); inversion E; subst; repeat split; exists []; reflexivity.
  - destruct (q_out_bytes _ _ _) as [out q]. inversion E; subst. repeat split. exists []. reflexivity.
  - destruct (smsgs s); inversion E; subst; repeat split; exists []; reflexivity.
  - inversion E; subst. repeat split. exists []. reflexivity.
  - inversion E; subst. repeat split. exists []. destruct (sb s1); reflexivity.
  - inversion E; subst. repeat split. exists []. reflexivity.
  - inversion E; subst. repeat split. exists []. reflexivity.
  - inversion E; subst. repeat split. exists []. reflexivity.
Qed.
Lemma act_pend c s a s1 l : act c s a = Some (s1, l) -> exists dropped, Permutation (pend s ++ call a) (pend s1 ++ enq l ++ dropped).
Proof.
  intros H. unfold pend. destruct a as [i it p ovf|i| | | |it p ovf| |k ok|i|]; cbn [act] in H.
  - destruct (nth_error (threads s) i) as [[f|]|] eqn:EN; try discriminate. inversion H; subst. exists []. cbn [threads strand set_threads enq app call]. rewrite app_nil_r.
    pose proof (put_items i (Some (FCheck it p ovf)) _ _ EN) as P. cbn [itso its] in P. rewrite app_nil_r in P. rewrite P. rewrite <- !app_assoc. apply Permutation_app_head. apply Permutation_app_comm.
  - destruct (nth_error (threads s) i) as [[f|]|] eqn:EN; try discriminate. destruct (exec c false s f) as [[s0 nxt] l0] eqn:E. inversion H; subst; clear H.
    destruct (exec_items _ _ _ _ _ _ _ E) as (T & S & d & D). exists d. cbn [threads strand set_threads call]. rewrite T, S, app_nil_r.
    pose proof (put_items i nxt _ _ EN) as P. cbn [itso] in P. rewrite D in P. rewrite (Permutation_app_comm (flat_map itso (threads s))) in P. rewrite (Permutation_app_comm (flat_map itso (put i nxt (threads s)))) in P.
    rewrite <- !app_assoc in P. apply Permutation_app_inv_l in P. rewrite <- P. rewrite (app_assoc (enq l)), (Permutation_app_comm (enq l ++ d)), <- !app_assoc. apply Permutation_app_head.
    rewrite (app_assoc (enq l)). apply Permutation_app_comm.
  - destruct (strand s) as [|f st] eqn:ES; [discriminate|]. assert (H' : exists s0 nxt l0, exec c true s f = (s0, nxt, l0) /\ l = l0 /\ s1 = set_strand s0 (push nxt st)).
    { destruct f; try discriminate; (destruct (exec c true s _) as [[s0 nxt] l0] eqn:E in H |- *; inversion H; subst; eauto 6). }
    destruct H' as (s0 & nxt & l0 & E & -> & ->). clear H. destruct (exec_items _ _ _ _ _ _ _ E) as (T & S & d & D). exists d. cbn [threads strand set_strand call flat_map]. rewrite T, app_nil_r, D, <- !app_assoc.
    apply Permutation_app_head. assert (X : flat_map its (push nxt st) = itso nxt ++ flat_map its st) by (destruct nxt; reflexivity). rewrite X, <- app_assoc. apply Permutation_app_head. rewrite app_assoc. apply Permutation_app_comm.
  - destruct (strand s); [|discriminate]. destruct (posted s); [discriminate|]. inversion H; subst. exists []. reflexivity.
  - destruct (strand s); [|discriminate]. inversion H; subst. exists []. reflexivity.
  - destruct (strand s) as [|[] st] eqn:ES; try discriminate. inversion H; subst. exists []. cbn [threads strand set_strand flat_map its call enq app]. rewrite app_nil_r, <- app_assoc. apply Permutation_app_head. symmetry. apply Permutation_cons_append.
  - destruct (strand s) as [|[] st] eqn:ES; try discriminate. inversion H; subst. exists []. reflexivity.
  - destruct (strand s) as [|]; [|discriminate]. destruct (nth_error (writes s) k); [|discriminate]. inversion H; subst. exists []. destruct ok; reflexivity.
  - destruct (nth_error (threads s) i) as [[f|]|] eqn:EN; try discriminate. destruct (strand s) eqn:ES; [|discriminate]. destruct (writes s); [|discriminate]. destruct (posted s); [|discriminate]. inversion H; subst. exists [].
    cbn [threads strand set_threads set_ready call enq app]. rewrite ES. pose proof (put_items i (Some FReady) _ _ EN) as P. cbn [itso its] in P. rewrite !app_nil_r in P. rewrite P. reflexivity.
  - inversion H; subst. exists []. reflexivity.
Qed.
Definition wcall (a : wact) : list (list item) := match a with WSend a => call a | _ => [] end.
Lemma wstep_pend c s a s1 t1 : wstep c s a = Some (s1, t1) ->
  exists dropped, Permutation (map (@concat byte) (pend (w_s s)) ++ map (@concat byte) (wcall a)) (map (@concat byte) (pend (w_s s1)) ++ frames (labels t1) ++ dropped).
Proof.
  intros H.
  assert (G : exists b, wcall a = call b /\ (act c (w_s s) b = Some (w_s s1, match labels t1 with [l] => l | _ => LTau end) /\ (exists l, labels t1 = [l])) \/ wcall a = [] /\ w_s s1 = w_s s /\ labels t1 = []).
  { destruct a; cbn [wstep] in H; unfold lift in H.
    - destruct (inner a); [|discriminate]. destruct (act c (w_s s) a) as [[s0 l]|] eqn:A; [|discriminate]. inversion H; subst. exists a. left. cbn. eauto.
    - exists ADown. destruct (writes (w_s s)); [discriminate|]. destruct (_ && _); [|discriminate]. inversion H; subst. right. auto.
    - destruct (writes (w_s s)); [discriminate|]. destruct (_ =? _); [|discriminate]. destruct (act c (w_s s) (AComplete 0 true)) as [[s0 x]|] eqn:A; [|discriminate]. inversion H; subst. exists (AComplete 0 true). left. cbn. eauto.
    - destruct (writes (w_s s)); [discriminate|]. destruct (_ && _); [|discriminate]. destruct (act c (w_s s) (AComplete 0 false)) as [[s0 x]|] eqn:A; [|discriminate]. inversion H; subst. exists (AComplete 0 false). left. cbn. eauto.
    - destruct (writes (w_s s)); [discriminate|]. destruct (_ && _); [|discriminate]. destruct (act c (w_s s) (AComplete 0 false)) as [[s0 x]|] eqn:A; [|discriminate]. inversion H; subst. exists (AComplete 0 false). left. cbn. eauto.
    - destruct (_ && _); [|discriminate]. destruct (act c (w_s s) ADown) as [[s0 x]|] eqn:A; [|discriminate]. inversion H; subst. exists ADown. left. cbn [labels w_s]. eauto.
    - destruct (in_strand _); [|discriminate]. destruct (act c (w_s s) ADown) as [[s0 x]|] eqn:A; [|discriminate]. inversion H; subst. exists ADown. left. cbn [labels w_s]. eauto.
    - inversion H; subst. exists ADown. right. auto.
    - destruct (ready _); [discriminate|]. destruct (act c (w_s s) (AUp i)) as [[s0 x]|] eqn:A; [|discriminate]. inversion H; subst. exists (AUp i). left. cbn [labels w_s]. eauto. }
  destruct G as (b & [(E1 & E2 & l & E3)|(E1 & E2 & E3)]).
  - rewrite E3 in *. destruct (act_pend _ _ _ _ _ E2) as (d & P). exists (map (@concat byte) d). rewrite E1, <- map_app, P, !map_app. apply Permutation_app_head. apply Permutation_app_tail. destruct l; reflexivity.
  - exists []. rewrite E1, E2, E3. reflexivity.
Qed.

(** ** the handling side *)
Lemma number_app a b : forall k, number k (a ++ b) = number k a ++ number (k + length a) b.
Proof.
  induction a as [|x a IH]; intros k; [cbn [app length]; rewrite Nat.add_0_r; reflexivity|]. change (number k ((x :: a) ++ b)) with ((k, lenN x) :: number (S k) (a ++ b)).
  change (number k (x :: a)) with ((k, lenN x) :: number (S k) a). rewrite IH. cbn [app length]. rewrite Nat.add_succ_r. reflexivity.
Qed.
Lemma number_length ms : forall k, length (number k ms) = length ms.
Proof. induction ms as [|x ms IH]; intros k; [reflexivity|]. change (number k (x :: ms)) with ((k, lenN x) :: number (S k) ms). cbn [length]. rewrite IH. reflexivity. Qed.
Lemma number_body ms : forall pre, map (body (pre ++ ms)) (number (length pre) ms) = ms.
Proof.
  induction ms as [|x ms IH]; intros pre; [reflexivity|]. change (number (length pre) (x :: ms)) with ((length pre, lenN x) :: number (S (length pre)) ms). cbn [map]. f_equal.
  - unfold body. cbn [fst]. rewrite app_nth2, Nat.sub_diag by lia. reflexivity.
  - change (x :: ms) with ([x] ++ ms). rewrite app_assoc. replace (S (length pre)) with (length (pre ++ [x])) by (rewrite app_length; cbn [length]; lia). apply IH.
Qed.
Lemma prefix_body tab h p : h ++ p = number 0 tab -> map (body tab) h = firstn (length h) tab.
Proof.
  intros E. pose proof (number_body tab []) as N. cbn [app length] in N. rewrite <- E in N. rewrite map_app in N. rewrite <- N at 2. rewrite firstn_app, map_length, Nat.sub_diag. cbn [firstn]. rewrite app_nil_r.
  rewrite <- (map_length (body tab) h). rewrite firstn_all. reflexivity.
Qed.
Record HI (c : pcfg) (tab : list (list byte)) (h : M_Handle.hst) (th : list M_Handle.ev) (hn : list (list byte)) : Prop := {
  hi_98 : P_Handle.I98 (hcfg c) h th; hi_100 : P_Handle.I100 h; hi_on : forall ms, M_Handle.h_i h <> M_Handle.IOn ms;
  hi_rec : S_Handle.received th = number 0 tab; hi_now : hn = firstn (length (S_Handle.handled th)) tab }.
Lemma HI_0 c : HI c [] M_Handle.handle0 [] [].
Proof. constructor; [apply P_Handle.I98_0|split; [reflexivity|exact I]|discriminate|reflexivity|reflexivity]. Qed.
Lemma HI_step c tab h th hn a h' es ms : HI c tab h th hn -> M_Handle.step (hcfg c) h a = Some (h', es) -> S_Handle.received es = number (length tab) ms ->
  HI c (tab ++ ms) h' (th ++ es) (hn ++ map (body (tab ++ ms)) (S_Handle.handled es)).
Proof.
  intros [H1 H0 H2 H3 H4] E R.
  assert (J : P_Handle.I98 (hcfg c) h' (th ++ es)). { eapply P_Handle.I98_step; [exact H1| |exact E]. destruct a; try exact I. destruct (M_Handle.h_i h) eqn:Hi; try exact I. destruct (H2 _ eq_refl). }
  constructor; [exact J|eapply P_Handle.I100_step; [exact H0| |exact E]; intros k re ->; exfalso; cbn [M_Handle.step] in E; destruct (M_Handle.h_i h) eqn:Hi; try discriminate; destruct (H2 _ eq_refl)|exact (P_Handle.no_on_step (hcfg c) _ _ _ _ eq_refl H2 E)| |].
  - rewrite P_Handle.received_app, H3, R, number_app. reflexivity.
  - destruct J as [_ J]. rewrite P_Handle.received_app, H3, R in J. change (length tab) with (0 + length tab) in J. rewrite <- number_app in J. symmetry in J. destruct H1 as [_ H1]. rewrite H3 in H1.
    assert (X : hn = map (body (tab ++ ms)) (S_Handle.handled th)).
    { rewrite H4. rewrite P_Handle.handled_app in J. rewrite <- app_assoc in J. rewrite (prefix_body _ _ _ J), firstn_app.
      assert (L : length (S_Handle.handled th) <= length tab). { apply (f_equal (@length _)) in H1. rewrite number_length, app_length in H1. lia. }
      replace (length (S_Handle.handled th) - length tab) with 0 by lia. cbn [firstn]. rewrite app_nil_r. reflexivity. }
    rewrite X, <- map_app, <- P_Handle.handled_app. exact (prefix_body _ _ _ J).
Qed.
Lemma recv_received c h ms h' es : M_Handle.step (hcfg c) h (M_Handle.HRecv ms) = Some (h', es) -> S_Handle.received es = ms.
Proof. cbn [M_Handle.step hcfg M_Handle.sync M_Handle.passive]. destruct (M_Handle.h_i h); try discriminate. destruct (M_Handle.is_nil ms) eqn:E; intros H; inversion H; subst; cbn; apply app_nil_r. Qed.
Lemma other_received c h a h' es : (forall ms, a <> M_Handle.HRecv ms) -> M_Handle.step (hcfg c) h a = Some (h', es) -> S_Handle.received es = [].
Proof. intros N D. P_Handle.cases D; try reflexivity; try (exfalso; eapply N; reflexivity). all: try discriminate. Qed.
Lemma feed_outs {S} awf (u : unpk S) st d st' os : feed awf u st d = Some (st', os) -> os = [] \/ exists o, os = [o].
Proof.
  unfold feed, complete_read. destruct st as [s sp tt lim|]; [|discriminate]. destruct (_ || _); [discriminate|]. destruct (u_write _ _ _ _); [|intros H; inversion H; auto].
  destruct (_ && _); [destruct (u_parse _ _ _) as [[[? ?] ?]|]; intros H; inversion H; subst; eauto|].
  destruct (u_cc _ _ _) as [[? ?]|]; [|intros H; inversion H; auto]. destruct (_ || _); [destruct (u_parse _ _ _) as [[[? ?] ?]|]; intros H; inversion H; subst; eauto|]. intros H; inversion H; subst; auto.
Qed.

(** ** everything together *)
Definition fine (c : cfg) (x : list byte) : Prop := exists b, x = frm c b /\ S_Frame.fits c b = true.
Definition all_frames (t : list pev) {S} (s : pst S) : list (list byte) := frames (labels (wtr t)) ++ map (@concat byte) (pend (w_s (p_w s))).
Record Q {S} (c : pcfg) (u : unpk S) (s0 : S) (t : list pev) (s : pst S) : Prop := {
  q_z : P_Wire.Z (wtr t) (p_w s);
  q_frm : Forall (fine (pc c)) (all_frames t s);
  q_cnt : forall b, b <> [] -> cnt (all_frames t s) (frm (pc c) b) <= cnt (asked t) b;
  q_rx : exists ds o, concat ds ++ p_net s = wire (cur (wtr t)) /\ M_Rx.run (pc_awf c) u (start_read u s0) ds = Some (p_rx s, o) /\ all_msgs o = p_tab s;
  q_h : exists th, HI c (p_tab s) (p_h s) th (handled_now t) }.
Arguments Q {S}.
Lemma Q_init {S} c (u : unpk S) s0 n : Q c u s0 [] (p_init u s0 n).
Proof.
  assert (PN : pend (w_s (w_init n)) = []) by (unfold pend; cbn; rewrite app_nil_r; induction n as [|n IH]; [reflexivity|exact IH]).
  constructor; unfold all_frames; cbn [p_init p_w p_net p_rx p_tab p_h wtr labels frames app asked]; rewrite ?PN.
  - apply P_Wire.Z_init.
  - constructor.
  - intros b _. cbn. lia.
  - exists [], []. repeat split.
  - exists []. apply HI_0.
Qed.
Lemma frame_inj c a b : frm c a = frm c b -> a = b.
Proof.
  unfold S_Frame.frame. intros H. assert (L : length (be_encode (N.to_nat (head_len c)) (head_len c + lenN a)) = length (be_encode (N.to_nat (head_len c)) (head_len c + lenN b))) by (rewrite !L_Bytes.be_encode_len; reflexivity).
  destruct (app_eq_app _ _ _ _ H) as (d & [(H1 & H2)|(H1 & H2)]).
  - rewrite H1, app_length in L. destruct d; [cbn in H2; congruence|cbn [length] in L; lia].
  - rewrite H1, app_length in L. destruct d; [cbn in H2; congruence|cbn [length] in L; lia].
Qed.
Lemma cnt_perm (a b : list (list byte)) x : Permutation a b -> cnt a x = cnt b x.
Proof. intros P. apply (Permutation_count_occ (list_eq_dec Byte.byte_eq_dec)). exact P. Qed.
(** a step of the sender, with what was asked just before *)
Lemma Q_wire {S} c (u : unpk S) s0 t s a e s1 t1 : Q c u s0 t s -> wire_step c u s0 s a e = Some (s1, t1) ->
  wtr e = [] -> forallb not_up e = true -> hs e = [] -> Forall (fine (pc c)) (map (@concat byte) (wcall a)) ->
  (forall b, b <> [] -> cnt (map (@concat byte) (wcall a)) (frm (pc c) b) <= cnt (asked e) b) -> Q c u s0 (t ++ t1) s1.
Proof.
  intros [QZ QF QC QR QH] H E1 E2 E3 C1 C2. unfold wire_step in H. destruct (wstep (pc_s c) (p_w s) a) as [[w vs]|] eqn:W; [|discriminate].
  assert (ET : t1 = e ++ map PV vs) by (injection H as _ <-; reflexivity). assert (EW : p_w s1 = w) by (injection H as <- _; destruct a; reflexivity).
  assert (WT : wtr (t ++ t1) = wtr t ++ vs) by (rewrite ET, !wtr_app, E1, wtr_PV; reflexivity).
  assert (AT : asked (t ++ t1) = asked t ++ asked e) by (rewrite ET, !asked_app, asked_PV, app_nil_r; reflexivity).
  destruct (wstep_pend _ _ _ _ _ W) as (d & P).
  assert (PP : Permutation (all_frames t s ++ map (@concat byte) (wcall a)) (all_frames (t ++ t1) s1 ++ d)).
  { unfold all_frames. rewrite WT, P_Wire.labels_app, frames_app, EW, <- !app_assoc. apply Permutation_app_head. rewrite P, Permutation_app_comm, <- app_assoc. apply Permutation_app_head. apply Permutation_app_comm. }
  constructor.
  - rewrite WT, EW. exact (P_Wire.Z_step _ _ _ _ _ _ QZ W).
  - assert (F : Forall (fine (pc c)) (all_frames (t ++ t1) s1 ++ d)) by (rewrite <- PP; apply Forall_app; auto). apply Forall_app in F. apply F.
  - intros b NB. specialize (QC b NB). specialize (C2 b NB). apply (cnt_perm _ _ (frm (pc c) b)) in PP. rewrite !count_occ_app in PP. rewrite AT, count_occ_app. lia.
  - rewrite WT. destruct (P_Wire.wstep_ups _ _ _ _ _ W) as [N|(-> & i & ->)].
    + destruct QR as (ds & o & R1 & R2 & R3). assert (X : s1 = mk_p w (p_net s ++ on_wire vs) (p_rx s) (p_live s) (p_tab s) (p_h s)).
      { destruct a; try (injection H as <- _; reflexivity). cbn [wstep] in W. destruct (ready _); [discriminate|]. unfold lift in W. destruct (act _ _ _) as [[? l]|] eqn:A; [|discriminate]. destruct (P_Wire.up_up _ _ _ _ _ A) as (-> & _). inversion W; subst. discriminate N. }
      rewrite X. cbn [p_net p_rx p_tab]. exists ds, o. split; [|auto]. rewrite P_Wire.cur_app, P_Wire.wire_app, <- R1, on_wire_ok, app_assoc by exact N. reflexivity.
    + injection H as <- _. cbn [p_net p_rx p_tab]. exists [], []. rewrite P_Wire.cur_snoc. cbn. repeat split.
  - destruct (P_Wire.wstep_ups _ _ _ _ _ W) as [N|(-> & i & ->)].
    + destruct QH as (th & QH). assert (X : s1 = mk_p w (p_net s ++ on_wire vs) (p_rx s) (p_live s) (p_tab s) (p_h s)).
      { destruct a; try (injection H as <- _; reflexivity). cbn [wstep] in W. destruct (ready _); [discriminate|]. unfold lift in W. destruct (act _ _ _) as [[? l]|] eqn:A; [|discriminate]. destruct (P_Wire.up_up _ _ _ _ _ A) as (-> & _). inversion W; subst. discriminate N. }
      rewrite X. cbn [p_tab p_h]. exists th. rewrite hnow_app; [|rewrite ET, forallb_app, E2, not_up_PV, N; reflexivity].
      assert (HN : hs t1 = []) by (rewrite ET; clear - E3; induction e as [|[]e IH]; cbn [hs app] in *; [apply hs_PV| | |destruct ms; [|discriminate]]; auto). rewrite HN, app_nil_r. exact QH.
    + injection H as <- _. cbn [p_tab p_h]. exists []. rewrite ET. cbn [map]. rewrite app_assoc, hnow_snoc. apply HI_0.
Qed.
Definition call_ok (c : pcfg) (a : pact) : Prop := match a with PCall _ x _ _ | PCallS x _ _ => arg_ok (pc c) x | _ => True end.
Lemma cnt_one (x y : list byte) : cnt [x] y <= 1.
Proof. cbn. destruct (list_eq_dec _ x y); lia. Qed.
Lemma send_fine c nd x it its : cfg_ok c = true -> (bufsz c < head_range c)%N -> arg_ok c x -> send_msg c nd true x = Ok (true, it :: its) ->
  concat (it :: its) = frm c (arg_body x) /\ S_Frame.fits c (arg_body x) = true.
Proof.
  intros HC HB HA E. destruct (L_Packer.send_msg_ok c nd x HC HB HA) as (ok & items & E2 & F & _). rewrite E in E2. injection E2 as <- <-.
  destruct (S_Frame.fits c (arg_body x)); [|discriminate F]. destruct F as (_ & [F|(F & _ & bs & ->)]); [auto|]. exfalso. unfold send_msg, send_items in E. cbn [negb] in E.
  destruct (pack_array c bs false) as [[bb m]|]; [|discriminate]. cbn [bind] in E. injection E as E. destruct m as [|z m]; [discriminate|]. cbn [opt_item] in E. inversion E; subst. discriminate F.
Qed.
Lemma asked_one c x it its : concat (it :: its) = frm c (arg_body x) -> forall b : list byte, b <> [] -> cnt (map (@concat byte) [it :: its]) (frm c b) <= cnt (asked [PAsk x]) b.
Proof.
  intros F b _. cbn [map asked]. rewrite F. destruct (list_eq_dec Byte.byte_eq_dec (arg_body x) b) as [->|N].
  - rewrite !count_occ_cons_eq by reflexivity. reflexivity.
  - rewrite count_occ_cons_neq; [apply Nat.le_0_l|]. intros X. apply N. exact (frame_inj _ _ _ X).
Qed.
Lemma Q_got {S} c (u : unpk S) s0 t s net rx live outs s1 t1 ds o : Q c u s0 t s ->
  got c s net rx live outs = Some (s1, t1) -> length outs <= 1 ->
  concat ds ++ net = wire (cur (wtr t)) -> M_Rx.run (pc_awf c) u (start_read u s0) ds = Some (rx, o) -> all_msgs o = p_tab s ++ concat outs -> Q c u s0 (t ++ t1) s1.
Proof.
  intros [QZ QF QC QR QH] H L D1 D2 D3. unfold got in H. destruct outs as [|ms [|]]; [| |cbn in L; lia].
  - injection H as <- <-. rewrite app_nil_r. constructor; cbn [p_w p_net p_rx p_tab p_h]; auto. exists ds, o. cbn [concat] in D3. rewrite app_nil_r in D3. auto.
  - destruct (M_Handle.step _ _ _) as [[h es]|] eqn:E; [|discriminate]. injection H as <- <-. destruct (seen_facts (p_tab s ++ ms) es) as (S1 & S2 & S3 & S4).
    assert (WT : wtr (t ++ seen (p_tab s ++ ms) es) = wtr t) by (rewrite wtr_app, S1, app_nil_r; reflexivity).
    constructor; unfold all_frames in *; cbn [p_w p_net p_rx p_tab p_h]; rewrite ?WT; auto.
    + rewrite asked_app, S2, app_nil_r. exact QC.
    + exists ds, o. cbn [concat] in D3. rewrite app_nil_r in D3. auto.
    + destruct QH as (th & QH). exists (th ++ es). rewrite hnow_app, S4 by exact S3. apply (HI_step _ _ _ _ _ _ _ _ _ QH E). exact (recv_received _ _ _ _ _ E).
Qed.
Lemma Q_step {S} c (u : unpk S) s0 t s a s1 t1 : cfg_ok (pc c) = true -> (bufsz (pc c) < head_range (pc c))%N -> clean_after_break (pc c) u s0 ->
  call_ok c a -> Q c u s0 t s -> pstep c u s0 s a = Some (s1, t1) -> Q c u s0 (t ++ t1) s1.
Proof.
  intros HC HB CB CO J H.
  assert (ASK : forall x, Q c u s0 (t ++ [PAsk x]) s).
  { intros x. destruct J as [QZ QF QC QR QH]. assert (WT : wtr (t ++ [PAsk x]) = wtr t) by (rewrite wtr_app; apply app_nil_r). constructor; unfold all_frames in *; rewrite ?WT; auto.
    - intros b NB. specialize (QC b NB). rewrite asked_app, (count_occ_app _ (asked t)). lia.
    - rewrite hnow_app by reflexivity. cbn [hs]. rewrite app_nil_r. exact QH. }
  destruct a as [i x p ovf|x p ovf|i|a|k| |a]; cbn [pstep] in H.
  - destruct (send_msg (pc c) (pc_nd c) true x) as [[[|] [|it its]]|] eqn:E; try (inversion H; subst; apply ASK); try discriminate H.
    destruct (send_fine _ _ _ _ _ HC HB CO E) as (F1 & F2). apply (Q_wire _ _ _ _ _ _ _ _ _ J H); try reflexivity; cbn [wcall call].
    + constructor; [|constructor]. exists (arg_body x). auto.
    + apply asked_one. exact F1.
  - destruct (send_msg (pc c) (pc_nd c) true x) as [[[|] [|it its]]|] eqn:E; try (inversion H; subst; apply ASK); try discriminate H.
    destruct (send_fine _ _ _ _ _ HC HB CO E) as (F1 & F2). apply (Q_wire _ _ _ _ _ _ _ _ _ J H); try reflexivity; cbn [wcall call].
    + constructor; [|constructor]. exists (arg_body x). auto.
    + apply asked_one. exact F1.
  - destruct (pack_heartbeat (pc c) (pc_nd c)) as [h|] eqn:E; [|discriminate H].
    assert (EH : h = frm (pc c) []).
    { pose proof (L_Packer.fits_nil _ HC) as FN. unfold pack_heartbeat in E. rewrite L_Packer.pack_header_ok in E; [|exact HC|apply N.le_0_l|].
      - injection E as <-. unfold S_Frame.frame, head_image. rewrite app_nil_r. reflexivity.
      - unfold S_Frame.fits in FN. apply andb_true_iff in FN as [_ FN]. apply N.ltb_lt in FN. exact FN. }
    apply (Q_wire _ _ _ _ _ _ _ _ _ J H); try reflexivity; cbn [wcall call map concat]; rewrite app_nil_r, EH.
    + constructor; [|constructor]. exists []. split; [reflexivity|]. exact (L_Packer.fits_nil _ HC).
    + intros b NB. rewrite count_occ_cons_neq; [apply Nat.le_0_l|]. intros X. apply NB. symmetry. exact (frame_inj _ _ _ X).
  - destruct (is_call a) eqn:IC; [discriminate|]. assert (WC : wcall a = []) by (destruct a as [[]| | | | | | | |]; try reflexivity; discriminate).
    apply (Q_wire _ _ _ _ _ _ _ _ _ J H); try reflexivity; rewrite WC; [constructor|]. intros b _. apply Nat.le_0_l.
  - destruct (may_read c s && (0 <? k) && (k <=? length (p_net s))); [|discriminate]. destruct (feed (pc_awf c) u (p_rx s) (firstn k (p_net s))) as [[rx os]|] eqn:E; [|discriminate].
    destruct (q_rx _ _ _ _ _ J) as (ds & o & R1 & R2 & R3). apply (Q_got _ _ _ _ _ _ _ _ _ _ _ (ds ++ [firstn k (p_net s)]) (o ++ os) J H).
    + rewrite map_length. destruct (feed_outs _ _ _ _ _ _ E) as [->|(x & ->)]; cbn; lia.
    + rewrite concat_app. cbn [concat]. rewrite app_nil_r, <- app_assoc, firstn_skipn. exact R1.
    + rewrite L_Rx.run_app, R2. cbn [run]. rewrite E, app_nil_r. reflexivity.
    + rewrite L_Rx.all_msgs_app, R3. reflexivity.
  - destruct (p_live s && _); [|discriminate]. destruct (q_rx _ _ _ _ _ J) as (ds & o & R1 & R2 & R3). destruct (CB _ _ _ _ R2) as (s2 & E & _). rewrite E in H.
    apply (Q_got _ _ _ _ _ _ _ _ _ _ _ ds o J H); [cbn; lia|exact R1|exact R2|]. rewrite R3. cbn [concat]. rewrite !app_nil_r. reflexivity.
  - assert (H' : (forall ms, a <> M_Handle.HRecv ms) /\ match M_Handle.step (hcfg c) (p_h s) a with
             | Some (h, es) => Some (mk_p (p_w s) (p_net s) (p_rx s) (p_live s) (p_tab s) h, seen (p_tab s) es) | None => None end = Some (s1, t1)).
    { destruct a; try discriminate H; (split; [discriminate|exact H]). }
    clear H. destruct H' as (NR & H). destruct (M_Handle.step (hcfg c) (p_h s) a) as [[h es]|] eqn:E; [|discriminate]. injection H as <- <-.
    destruct (seen_facts (p_tab s) es) as (S1 & S2 & S3 & S4). destruct J as [QZ QF QC QR QH].
    assert (WT : wtr (t ++ seen (p_tab s) es) = wtr t) by (rewrite wtr_app, S1, app_nil_r; reflexivity).
    constructor; unfold all_frames in *; cbn [p_w p_net p_rx p_tab p_h]; rewrite ?WT; auto.
    + rewrite asked_app, S2, app_nil_r. exact QC.
    + destruct QH as (th & QH). exists (th ++ es). rewrite hnow_app, S4 by exact S3. pose proof (HI_step _ _ _ _ _ _ _ _ [] QH E) as X. rewrite !app_nil_r in X. apply X. exact (other_received _ _ _ _ _ NR E).
Qed.
Lemma Q_run {S} c (u : unpk S) s0 l : cfg_ok (pc c) = true -> (bufsz (pc c) < head_range (pc c))%N -> clean_after_break (pc c) u s0 -> Forall (call_ok c) l ->
  forall t s s1 t1, Q c u s0 t s -> prun c u s0 s l = Some (s1, t1) -> Q c u s0 (t ++ t1) s1.
Proof.
  intros HC HB CB. induction l as [|a l IH]; intros F t s s1 t1 J H; cbn [prun] in H; [inversion H; subst; rewrite app_nil_r; exact J|].
  inversion F; subst. destruct (pstep c u s0 s a) as [[s2 t2]|] eqn:E; [|discriminate]. destruct (prun c u s0 s2 l) as [[s3 t3]|] eqn:E2; [|discriminate]. inversion H; subst.
  rewrite app_assoc. refine (IH _ _ _ _ _ (Q_step _ _ _ _ _ _ _ _ HC HB CB _ J E) E2); assumption.
Qed.

(** ** C133 *)
Lemma complete_prefix c bs : forall k, exists j, S_Frame.complete c bs k = firstn j bs.
Proof.
  induction bs as [|b bs IH]; intros k; [exists 0; reflexivity|]. cbn [S_Frame.complete]. destruct (_ <=? _)%N; [|exists 0; reflexivity].
  destruct (IH (k - lenN (frm c b))%N) as (j & ->). exists (S j). reflexivity.
Qed.
Lemma shown_prefix c bs : forall n, exists j, firstn n (S_Frame.shown c bs) = S_Frame.shown c (firstn j bs).
Proof.
  unfold S_Frame.shown. induction bs as [|b bs IH]; intros n; [exists 0; cbn; apply firstn_nil|]. destruct n as [|n]; [exists 0; reflexivity|].
  cbn [filter]. destruct (S_Frame.nonempty b) eqn:E.
  - cbn [map firstn]. destruct (IH n) as (j & EJ). exists (S j). cbn [firstn filter]. rewrite E. cbn [map]. rewrite EJ. reflexivity.
  - destruct (IH (S n)) as (j & EJ). exists (S j). cbn [firstn filter]. rewrite E. exact EJ.
Qed.
Lemma fine_bodies c fs : Forall (fine c) fs -> exists bodies, fs = map (frm c) bodies /\ forallb (S_Frame.fits c) bodies = true.
Proof.
  induction 1 as [|x fs (b & -> & F) _ (bs & -> & FS)]; [exists []; auto|]. exists (b :: bs). cbn [map forallb]. rewrite F, FS. auto.
Qed.
Lemma cnt_map c bs b : cnt (map (frm c) bs) (frm c b) = cnt bs b.
Proof.
  induction bs as [|x bs IH]; [reflexivity|]. cbn [map]. destruct (list_eq_dec Byte.byte_eq_dec x b) as [->|N].
  - rewrite !count_occ_cons_eq by reflexivity. rewrite IH. reflexivity.
  - rewrite !count_occ_cons_neq; [exact IH|exact N|]. intros X. apply N. exact (frame_inj _ _ _ X).
Qed.
(** what the receiver has got *)
Lemma Q_received {S} c (u : unpk S) s0 t s : receives_frames (pc c) u s0 -> Q c u s0 t s -> ~ In WGlitch (cur (wtr t)) -> no_prior (labels (wtr t)) -> forall k,
  concat (handed (labels (former (wtr t)))) = concat (firstn k (frames (labels (wtr t)))) ->
  exists bodies more, accepted (pc c) t bodies /\ forallb (S_Frame.fits (pc c)) bodies = true /\ S_Frame.wire (pc c) (skipn k bodies) = wire (cur (wtr t)) ++ more ++ concat (L_Send.mid (w_s (p_w s)) ++ sb (w_s (p_w s))) /\
    concat (begun (cur (wtr t))) = wire (cur (wtr t)) ++ more /\
    exists n, p_tab s = S_Frame.expected (pc c) (skipn k bodies) n /\ (p_net s = [] -> n = lenN (wire (cur (wtr t)))).
Proof.
  intros RF [QZ QF QC QR QH] G NP k EK. destruct QZ as [ZK ZP ZQ ZF]. destruct (P_Wire.wire_prefix _ _ ZK G) as (more & EW).
  unfold all_frames in *. apply Forall_app in QF as [QF _]. destruct (fine_bodies _ _ QF) as (bodies & EB & FB). exists bodies, more.
  assert (OR := L_Send.i_order _ _ (P_Wire.k_inv _ _ ZK) NP). rewrite P_Wire.handed_split in OR. apply (f_equal (@concat byte)) in OR. rewrite <- P_Wire.frames_queued, !concat_app, EK in OR.
  assert (SK : S_Frame.wire (pc c) (skipn k bodies) = wire (cur (wtr t)) ++ more ++ concat (L_Send.mid (w_s (p_w s)) ++ sb (w_s (p_w s)))).
  { unfold S_Frame.wire. rewrite <- skipn_map, <- EB. rewrite <- (firstn_skipn k (frames (labels (wtr t)))) in OR at 2. rewrite concat_app, <- app_assoc in OR. apply app_inv_head in OR. rewrite <- OR, EW, concat_app, <- app_assoc. reflexivity. }
  split; [|split; [exact FB|split; [exact SK|split; [exact EW|]]]].
  - split; [exact EB|]. intros b NB. specialize (QC b NB). rewrite count_occ_app, EB, cnt_map in QC. lia.
  - destruct QR as (ds & o & R1 & R2 & R3). rewrite <- R1, <- app_assoc in SK. assert (FK : forallb (S_Frame.fits (pc c)) (skipn k bodies) = true).
    { rewrite <- (firstn_skipn k bodies), forallb_app in FB. apply andb_true_iff in FB as [_ FB]. exact FB. }
    destruct (RF _ _ _ _ _ _ FK (eq_sym SK) R2) as (AM & _). exists (lenN (concat ds)). rewrite <- R3. split; [exact AM|]. intros EN. rewrite EN, app_nil_r in R1. rewrite R1. reflexivity.
Qed.
Lemma Q_delivered {S} c (u : unpk S) s0 t s : receives_frames (pc c) u s0 -> Q c u s0 t s -> ~ In WGlitch (cur (wtr t)) -> no_prior (labels (wtr t)) -> whole_before (wtr t) -> delivered (pc c) t.
Proof.
  intros RF J G NP (k0 & EK0).
  assert (EK : exists k, concat (handed (labels (former (wtr t)))) = concat (firstn k (frames (labels (wtr t)))) /\ (ups (wtr t) <= 1 -> k = 0)).
  { destruct (le_lt_dec (ups (wtr t)) 1) as [U|U]; [|exists k0; split; [exact EK0|lia]]. exists 0. rewrite (P_Wire.z_first _ _ (q_z _ _ _ _ _ J) U). auto. }
  destruct EK as (k & EK & K1). destruct (Q_received _ _ _ _ _ RF J G NP k EK) as (bodies & more & AC & FB & SK & _ & n & EN & _).
  destruct (q_h _ _ _ _ _ J) as (th & [_ _ _ _ HN]). rewrite EN in HN. unfold S_Frame.expected in HN. destruct (complete_prefix (pc c) (skipn k bodies) n) as (j & EJ). rewrite EJ in HN.
  destruct (shown_prefix (pc c) (firstn j (skipn k bodies)) (length (S_Handle.handled th))) as (j2 & EJ2). rewrite EJ2, firstn_firstn in HN.
  exists (firstn k bodies), (firstn (Nat.min j2 j) (skipn k bodies)), (skipn (Nat.min j2 j) (skipn k bodies)). split; [|split; [exact HN|split]].
  - rewrite firstn_skipn, firstn_skipn. exact AC.
  - rewrite EK, (proj1 AC). unfold S_Frame.wire. rewrite firstn_map. reflexivity.
  - intros U. rewrite (K1 U). reflexivity.
Qed.

(** The full claim, for every receiver that does what C01, C04 or C05 and C60 say. *)
Definition C133_statement : Prop := forall (S : Type) c (u : unpk S) s0 n l s t,
  cfg_ok (pc c) = true -> (bufsz (pc c) < head_range (pc c))%N -> receives_frames (pc c) u s0 -> clean_after_break (pc c) u s0 ->
  Forall (call_ok c) l -> prun c u s0 (p_init u s0 n) l = Some (s, t) -> delivered (pc c) t.
(** examples: ext::unpacker with messages of at most 9 bytes *)
Definition ex_c (b : N) : pcfg := mk_pc (mk_cfg 9 false true (2^64 - 1)) true (mk_sc 1048576 b (2^64)) true false 1048576.
Definition ex_u := M_Unpacker.unpacker (pc (ex_c 0)).
Definition ex_0 := M_Unpacker.unp_init (pc (ex_c 0)) (repeat Byte.xff 9).
Definition go (l : list wact) : list pact := map PWire l.
(** thread 0 sends; k steps in the thread; then the strand *)
Definition send_one (x : arg) : list pact := PCall 0 x false false :: go (repeat (WSend (AThread 0)) 4 ++ [WSend ATask] ++ repeat (WSend AStrand) 3).
Definition send_later (x : arg) (p : bool) (k : nat) : list pact := PCall 0 x p false :: go (repeat (WSend (AThread 0)) k).
Definition handle1 : list pact := map PHand [M_Handle.HMove; M_Handle.HTest; M_Handle.HPost; M_Handle.HRun; M_Handle.HMark; M_Handle.HRet true; M_Handle.HClear; M_Handle.HRepost; M_Handle.HRun].
Definition xy : list byte := [Byte.x78; Byte.x79].
Definition tricky : list byte := [Byte.x00; Byte.x04] ++ xy.
(** The header is lost with the first link, the second link starts with the body: the peer takes it for a frame and handles a message
    nobody sent. *)
Definition split_acts : list pact := go P_Wire.conn ++ send_one (AOne tricky) ++ go ([WTake 1; WBreak; WFail] ++ P_Wire.handler_err ++ [WForce; WUp 0; WSend (AThread 0); WSend (AThread 0); WSend ATask] ++ repeat (WSend AStrand) 3 ++ [WTake 4]) ++
  [PRead 4] ++ handle1.
Theorem C133_split_refuted : exists s t, prun (ex_c 0) ex_u ex_0 (p_init ex_u ex_0 1) split_acts = Some (s, t) /\
  asked t = [tricky] /\ handled_now t = [xy] /\ ups (wtr t) = 2 /\ existsb (fun e => match e with WGlitch => true | _ => false end) (wtr t) = false /\ no_prior (labels (wtr t)).
Proof. do 2 eexists. split; [vm_compute; reflexivity|]. vm_compute. repeat split. Qed.
(** A write fails though the link goes on: the next message is taken for the rest of the former one. *)
Definition glitch_acts : list pact := go P_Wire.conn ++ send_one (AArray (Some [mk_buf (Some xy) 2])) ++ go ([WTake 2; WErr] ++ P_Wire.handler_err) ++ send_one (AArray (Some [mk_buf (Some xy) 2])) ++ go [WTake 4] ++ [PRead 6] ++ handle1.
Theorem C133_glitch_refuted : exists s t, prun (ex_c 0) ex_u ex_0 (p_init ex_u ex_0 1) glitch_acts = Some (s, t) /\
  asked t = [xy; xy] /\ handled_now t = [[Byte.x00; Byte.x04]] /\ ups (wtr t) = 1.
Proof. do 2 eexists. split; [vm_compute; reflexivity|]. vm_compute. repeat split. Qed.
(** A message sent with the prior flag gets between header and body of another one. *)
Definition abcd : list byte := [Byte.x61; Byte.x62; Byte.x63; Byte.x64].
Definition prior_acts : list pact := go P_Wire.conn ++ send_one (AOne abcd) ++ send_later (AOne xy) true 4 ++ go ([WTake 2; WDone; WSend AUserRet] ++ repeat (WSend AStrand) 4 ++ [WTake 2; WDone; WSend AUserRet] ++ repeat (WSend AStrand) 4 ++ [WTake 2; WDone; WSend AUserRet] ++ repeat (WSend AStrand) 4 ++ [WTake 4]) ++
  [PRead 9] ++ handle1.
Theorem C133_prior_refuted : exists s t, prun (ex_c 0) ex_u ex_0 (p_init ex_u ex_0 1) prior_acts = Some (s, t) /\
  asked t = [abcd; xy] /\ handled_now t = [tricky] /\ ups (wtr t) = 1.
Proof. do 2 eexists. split; [vm_compute; reflexivity|]. vm_compute. repeat split. Qed.
Lemma ex_ok : cfg_ok (pc (ex_c 0)) = true /\ (bufsz (pc (ex_c 0)) < head_range (pc (ex_c 0)))%N /\ receives_frames (pc (ex_c 0)) ex_u ex_0 /\ clean_after_break (pc (ex_c 0)) ex_u ex_0.
Proof.
  split; [reflexivity|]. split; [reflexivity|]. split; [apply P_Unpacker.C01_unpacker_delivers_exactly; reflexivity|apply P_Unpacker.C60_unpacker_clean_after_break; reflexivity].
Qed.
Theorem C133_statement_refuted : ~ C133_statement.
Proof.
  intros H. destruct C133_split_refuted as (s & t & E & A & HN & _). destruct ex_ok as (O1 & O2 & O3 & O4).
  assert (CO : Forall (call_ok (ex_c 0)) split_acts).
  { unfold split_acts. rewrite !Forall_app. repeat split; repeat constructor. }
  destruct (H _ _ _ _ _ _ _ _ O1 O2 O3 O4 CO E) as (before & now & after & (_ & CN) & HD & _). clear E.
  assert (X : In xy now).
  { rewrite HN in HD. assert (Y : In xy (S_Frame.shown (pc (ex_c 0)) now)) by (rewrite <- HD; left; reflexivity). unfold S_Frame.shown in Y. apply in_map_iff in Y as (b & EB & Y). cbn in EB. subst b. apply filter_In in Y. apply Y. }
  specialize (CN xy ltac:(discriminate)). rewrite A in CN. assert (Z : cnt [tricky] xy = 0) by (vm_compute; reflexivity). rewrite Z in CN.
  assert (W : cnt (before ++ now ++ after) xy > 0) by (apply count_occ_In; apply in_or_app; right; apply in_or_app; left; exact X). lia.
Qed.
(** The part that holds: every message the receiving application handles on this link is one that was given to a send function and put
    into the send buffer; those handled are consecutive ones, in the order of the send buffer, each once; on the first link they start
    with the first one. This needs: no write failed while the link went on, no message was sent with the prior flag, and former links
    took whole messages out of the send buffer. *)
Theorem C133_partial : forall (S : Type) c (u : unpk S) s0 n l s t,
  cfg_ok (pc c) = true -> (bufsz (pc c) < head_range (pc c))%N -> receives_frames (pc c) u s0 -> clean_after_break (pc c) u s0 ->
  Forall (call_ok c) l -> prun c u s0 (p_init u s0 n) l = Some (s, t) ->
  ~ In WGlitch (cur (wtr t)) -> no_prior (labels (wtr t)) -> whole_before (wtr t) -> delivered (pc c) t.
Proof.
  intros S c u s0 n l s t HC HB RF CB CO E G NP WB. exact (Q_delivered _ _ _ _ _ RF (Q_run c u s0 l HC HB CB CO [] _ _ _ (Q_init c u s0 n) E) G NP WB).
Qed.
(** former links take whole messages if there was none, or if every send call puts one item into the send buffer *)
Lemma single_queued tr : single_items tr -> queued tr = frames tr.
Proof.
  induction tr as [|[] tr IH]; cbn [single_items queued frames]; intros H; auto. destruct H as [H1 H2]. destruct it as [|x [|]]; try discriminate. cbn [app concat]. rewrite app_nil_r, IH by exact H2. reflexivity.
Qed.
Lemma Q_whole {S} c (u : unpk S) s0 t s : Q c u s0 t s -> no_prior (labels (wtr t)) -> ups (wtr t) <= 1 \/ single_items (labels (wtr t)) -> whole_before (wtr t).
Proof.
  intros J NP [U|SI]; pose proof (q_z _ _ _ _ _ J) as [ZK ZP ZQ ZF].
  - exists 0. rewrite (ZF U). reflexivity.
  - pose proof (L_Send.i_order _ _ (P_Wire.k_inv _ _ ZK) NP) as OR. rewrite P_Wire.handed_split, (single_queued _ SI), <- app_assoc in OR. exists (length (handed (labels (former (wtr t))))).
    rewrite <- OR, firstn_app, firstn_all, Nat.sub_diag. cbn [firstn]. rewrite app_nil_r. reflexivity.
Qed.
Theorem C133_links_partial : forall (S : Type) c (u : unpk S) s0 n l s t,
  cfg_ok (pc c) = true -> (bufsz (pc c) < head_range (pc c))%N -> receives_frames (pc c) u s0 -> clean_after_break (pc c) u s0 ->
  Forall (call_ok c) l -> prun c u s0 (p_init u s0 n) l = Some (s, t) ->
  ~ In WGlitch (cur (wtr t)) -> no_prior (labels (wtr t)) -> ups (wtr t) <= 1 \/ single_items (labels (wtr t)) -> delivered (pc c) t.
Proof.
  intros S c u s0 n l s t HC HB RF CB CO E G NP D. pose proof (Q_run c u s0 l HC HB CB CO [] _ _ _ (Q_init c u s0 n) E) as J. exact (Q_delivered _ _ _ _ _ RF J G NP (Q_whole _ _ _ _ _ J NP D)).
Qed.
(** for the unpackers of the library: ext::unpacker, ext::flexible_unpacker, ext::non_copy_unpacker *)
Theorem C133_unpackers_partial : forall c g mem n l,
  cfg_ok (pc c) = true -> (bufsz (pc c) < head_range (pc c))%N -> Forall (call_ok c) l ->
  (lenN mem = bufsz (pc c) -> forall s t, let u := M_Unpacker.unpacker (pc c) in let s0 := M_Unpacker.unp_init (pc c) mem in prun c u s0 (p_init u s0 n) l = Some (s, t) ->
     ~ In WGlitch (cur (wtr t)) -> no_prior (labels (wtr t)) -> ups (wtr t) <= 1 \/ single_items (labels (wtr t)) -> delivered (pc c) t) /\
  (lenN mem = M_Flex.flex_raw_size -> forall s t, let u := M_Flex.flexible_unpacker (pc c) g in let s0 := M_Flex.flex_init (pc c) mem in prun c u s0 (p_init u s0 n) l = Some (s, t) ->
     ~ In WGlitch (cur (wtr t)) -> no_prior (labels (wtr t)) -> ups (wtr t) <= 1 \/ single_items (labels (wtr t)) -> delivered (pc c) t) /\
  (stripped (pc c) = true -> lenN mem = head_len (pc c) -> forall s t, let u := M_NonCopy.non_copy_unpacker (pc c) g in let s0 := M_NonCopy.nc_init mem in prun c u s0 (p_init u s0 n) l = Some (s, t) ->
     ~ In WGlitch (cur (wtr t)) -> no_prior (labels (wtr t)) -> ups (wtr t) <= 1 \/ single_items (labels (wtr t)) -> delivered (pc c) t).
Proof.
  intros c g mem n l HC HB CO. split; [|split].
  - intros L s t u s0 E G NP D. apply (C133_links_partial _ c u s0 n l s t); auto; [apply P_Unpacker.C01_unpacker_delivers_exactly|apply P_Unpacker.C60_unpacker_clean_after_break]; assumption.
  - intros L s t u s0 E G NP D. destruct (P_Unpacker.C04_flexible_unpacker_4000 (pc c) g mem HC L) as (R1 & _ & _ & R2). apply (C133_links_partial _ c u s0 n l s t); auto.
  - intros ST L s t u s0 E G NP D. destruct (P_Unpacker.C05_non_copy_unpacker (pc c) g mem HC ST L) as (R1 & _ & _ & R2). apply (C133_links_partial _ c u s0 n l s t); auto.
Qed.
(** two messages from a thread and a heartbeat, bytes in pieces, one message handled while the other one is on its way *)
Definition ex_acts : list pact := go P_Wire.conn ++ send_one (AOne abcd) ++ (PBeat 0 :: go (repeat (WSend (AThread 0)) 4)) ++ send_later (ATwo xy xy) false 4 ++
  go [WTake 2] ++ [PRead 1] ++ go ([WDone; WSend AUserRet] ++ repeat (WSend AStrand) 4 ++ [WTake 4]) ++ [PRead 5] ++
  go ([WDone; WSend AUserRet] ++ repeat (WSend AStrand) 4 ++ [WTake 2; WDone; WSend AUserRet] ++ repeat (WSend AStrand) 4 ++ [WTake 1]) ++ handle1 ++ [PRead 3].
Example C133_example : exists s t, prun (ex_c 0) ex_u ex_0 (p_init ex_u ex_0 1) ex_acts = Some (s, t) /\ asked t = [abcd; xy ++ xy] /\ handled_now t = [abcd] /\ ups (wtr t) = 1 /\ no_prior (labels (wtr t)) /\
  existsb (fun e => match e with WGlitch => true | _ => false end) (wtr t) = false /\ length (wire (wtr t)) = 9 /\ p_net s = [].
Proof. do 2 eexists. split; [vm_compute; reflexivity|]. vm_compute. repeat split. Qed.
Print Assumptions C133_partial.
Print Assumptions C133_links_partial.
Print Assumptions C133_unpackers_partial.
Print Assumptions C133_split_refuted.
Print Assumptions C133_glitch_refuted.
Print Assumptions C133_prior_refuted.
Print Assumptions C133_statement_refuted.
(** the second link after a broken one, messages given as arrays of buffers *)
Definition arr (b : list byte) : arg := AArray (Some [mk_buf (Some b) (lenN b)]).
Definition again_acts : list pact := go P_Wire.conn ++ send_one (arr abcd) ++ send_later (arr xy) false 4 ++ go [WTake 3] ++ [PRead 2] ++ [PEnd] ++ go ([WBreak; WFail] ++ P_Wire.handler_err ++ [WForce; WUp 0; WSend (AThread 0); WSend (AThread 0); WSend ATask] ++ repeat (WSend AStrand) 3 ++ [WTake 4]) ++
  [PRead 4] ++ handle1.
Example C133_links_example : exists s t, prun (ex_c 0) ex_u ex_0 (p_init ex_u ex_0 1) again_acts = Some (s, t) /\ asked t = [abcd; xy] /\ handled_now t = [xy] /\ ups (wtr t) = 2 /\ no_prior (labels (wtr t)) /\ single_items (labels (wtr t)) /\
  existsb (fun e => match e with WGlitch => true | _ => false end) (wtr t) = false.
Proof. do 2 eexists. split; [vm_compute; reflexivity|]. vm_compute. repeat split. Qed.

(** ** C134 *)
(** the measure of the handling side *)
Definition hm (h : M_Handle.hst) : nat :=
  5 * length (M_Handle.h_buf h) + 2 * M_Handle.h_posted h + (if M_Handle.h_timer h then 3 else 0) +
  match M_Handle.h_d h with
  | M_Handle.DIdle => match M_Handle.h_held h with Some _ => 5 | None => 0 end
  | M_Handle.DTaken => 6 | M_Handle.DIn => 5 | M_Handle.DSet => 9 | M_Handle.DClear => 4 | M_Handle.DRepost => 3
  end +
  match M_Handle.h_i h with M_Handle.IMove ms _ => 5 + 5 * length ms | M_Handle.ITest => 4 | M_Handle.IPost => 3 | _ => 0 end.
Lemma hm_step c h a h' es : pc_batch c = false -> P_Handle.W (hcfg c) h -> onward (PHand a) = true -> M_Handle.step (hcfg c) h a = Some (h', es) -> hm h' < hm h.
Proof.
  intros B (_ & _ & _ & W4) O D. unfold hm. assert (BC : M_Handle.batch (hcfg c) = false) by exact B.
  P_Handle.cases D; try discriminate; try congruence; repeat match goal with H : M_Handle.h_d h = _ |- _ => rewrite H in * | H : M_Handle.h_i h = _ |- _ => rewrite H in * end; P_Handle.pj; rewrite ?app_length; cbn [length]; try lia.
  all: repeat match goal with H : M_Handle.h_timer ?x = _ |- context [M_Handle.h_timer ?x] => rewrite H | H : M_Handle.h_buf ?x = _ |- context [M_Handle.h_buf ?x] => rewrite H end; cbn [length]; try lia.
  all: try match goal with |- context [M_Handle.h_disp ?x] => destruct (M_Handle.h_disp x); lia end.
  - specialize (W4 eq_refl). destruct (M_Handle.h_held h); [lia|discriminate].
  - destruct W4 as (_ & W4). specialize (W4 BC). destruct (M_Handle.h_held h); [|discriminate]. destruct (M_Handle.h_timer h); lia.
  - destruct W4 as (_ & ->). lia.
Qed.
Definition m1 {S} (s : pst S) : nat := L_Send.meas (w_s (p_w s)).
Definition m2 {S} (s : pst S) : nat := length (concat (P_Wire.flight (w_s (p_w s)))) - w_off (p_w s).
Definition m3 {S} (s : pst S) : nat := length (p_net s).
Definition m4 {S} (s : pst S) : nat := hm (p_h s).
Lemma next_less {S} c (u : unpk S) s0 t s a s1 t1 : pc_batch c = false -> Q c u s0 t s -> onward a = true -> pstep c u s0 s a = Some (s1, t1) ->
  m1 s1 < m1 s \/ m1 s1 = m1 s /\ (m2 s1 < m2 s \/ m2 s1 = m2 s /\ (m3 s1 < m3 s \/ m3 s1 = m3 s /\ m4 s1 < m4 s)).
Proof.
  intros B J O H. pose proof (P_Wire.k_inv _ _ (P_Wire.z_k _ _ (q_z _ _ _ _ _ J))) as IV. unfold m1, m2, m3, m4. destruct a as [i x p ovf|x p ovf|i|a|k| |a]; try discriminate O; cbn [pstep] in H.
  - destruct (is_call a); [discriminate|]. unfold wire_step in H. destruct (wstep (pc_s c) (p_w s) a) as [[w vs]|] eqn:W; [|discriminate].
    assert (EW : p_w s1 = w) by (injection H as <- _; destruct a; reflexivity). rewrite EW.
    destruct a as [a|k| | | | | | |]; try discriminate O; cbn [wstep] in W.
    + left. destruct (inner a); [|discriminate]. unfold lift in W. destruct (act _ _ _) as [[s' l]|] eqn:A; [|discriminate]. injection W as <- _. cbn [w_s]. refine (L_Send.go_meas _ _ _ _ _ _ IV _ A). destruct a; try discriminate O; reflexivity.
    + right. destruct (writes (w_s (p_w s))) as [|w0 ws] eqn:E; [discriminate|]. destruct (w_open (p_w s) && (0 <? k) && (w_off (p_w s) + k <=? length (concat w0))) eqn:BB; [|discriminate]. injection W as <- _. cbn [w_s w_off].
      split; [reflexivity|]. left. apply andb_true_iff in BB as [BB B3]. apply andb_true_iff in BB as [B1 B2]. apply Nat.ltb_lt in B2. apply Nat.leb_le in B3.
      unfold P_Wire.flight. rewrite E. cbn [concat]. rewrite concat_app, app_length. lia.
    + left. destruct (writes (w_s (p_w s))) as [|w0 ws] eqn:E; [discriminate|]. destruct (_ =? _); [|discriminate]. unfold lift in W. destruct (act _ _ _) as [[s' l]|] eqn:A; [|discriminate]. injection W as <- _. cbn [w_s]. refine (L_Send.go_meas _ _ (AComplete 0 true) _ _ _ IV eq_refl A).
  - destruct (may_read c s && (0 <? k) && (k <=? length (p_net s))) eqn:BB; [|discriminate]. apply andb_true_iff in BB as [BB B3]. apply andb_true_iff in BB as [B1 B2]. apply Nat.ltb_lt in B2. apply Nat.leb_le in B3.
    destruct (feed _ _ _ _) as [[rx os]|]; [|discriminate]. unfold got in H. assert (X : p_w s1 = p_w s /\ p_net s1 = skipn k (p_net s)).
    { destruct (map out_msgs os); [injection H as <- _; split; reflexivity|]. destruct (M_Handle.step _ _ _) as [[h es]|]; [|discriminate]. injection H as <- _. split; reflexivity. }
    destruct X as (-> & ->). right. split; [reflexivity|]. right. split; [reflexivity|]. left. rewrite skipn_length. lia.
  - assert (H' : match M_Handle.step (hcfg c) (p_h s) a with
             | Some (h, es) => Some (mk_p (p_w s) (p_net s) (p_rx s) (p_live s) (p_tab s) h, seen (p_tab s) es) | None => None end = Some (s1, t1)) by (destruct a; try discriminate O; exact H).
    clear H. destruct (M_Handle.step (hcfg c) (p_h s) a) as [[h es]|] eqn:E; [|discriminate]. injection H' as <- _. cbn [p_w p_net p_h]. right. split; [reflexivity|]. right. split; [reflexivity|]. right. split; [reflexivity|].
    destruct (q_h _ _ _ _ _ J) as (th & [[w _] _ _ _ _]). exact (hm_step _ _ _ _ _ B w O E).
Qed.
Lemma Q_acc {S} c (u : unpk S) s0 : cfg_ok (pc c) = true -> (bufsz (pc c) < head_range (pc c))%N -> clean_after_break (pc c) u s0 -> pc_batch c = false ->
  forall t s, Q c u s0 t s -> Acc (next c u s0) s.
Proof.
  intros HC HB CB B.
  assert (G : forall n1 n2 n3 n4 t s, m1 s = n1 -> m2 s = n2 -> m3 s = n3 -> m4 s = n4 -> Q c u s0 t s -> Acc (next c u s0) s).
  { induction n1 as [n1 I1] using (well_founded_induction lt_wf). induction n2 as [n2 I2] using (well_founded_induction lt_wf). induction n3 as [n3 I3] using (well_founded_induction lt_wf). induction n4 as [n4 I4] using (well_founded_induction lt_wf).
    intros t s E1 E2 E3 E4 J. constructor. intros s1 (a & t1 & O & H).
    assert (CO : call_ok c a) by (destruct a; try discriminate O; exact I). pose proof (Q_step _ _ _ _ _ _ _ _ HC HB CB CO J H) as J1.
    destruct (next_less _ _ _ _ _ _ _ _ B J O H) as [L|(L1 & [L|(L2 & [L|(L3 & L)])])].
    - eapply (I1 (m1 s1)); [lia| | | | |exact J1]; reflexivity.
    - eapply (I2 (m2 s1)); [lia| | | | |exact J1]; try reflexivity. lia.
    - eapply (I3 (m3 s1)); [lia| | | | |exact J1]; try reflexivity; lia.
    - eapply (I4 (m4 s1)); [lia| | | | |exact J1]; try reflexivity; lia. }
  intros t s J. exact (G _ _ _ _ t s eq_refl eq_refl eq_refl eq_refl J).
Qed.
(** at rest *)
Lemma rest_sender {S} c (u : unpk S) s0 t s : Q c u s0 t s -> at_rest c u s0 s -> w_open (p_w s) = true -> idle (w_s (p_w s)).
Proof.
  intros J R O. pose proof (P_Wire.z_k _ _ (q_z _ _ _ _ _ J)) as [KI KO KL KW].
  assert (IN : forall a, inner a = true -> onward (PWire (WSend a)) = true -> act (pc_s c) (w_s (p_w s)) a = None).
  { intros a I1 O1. specialize (R _ O1). cbn [pstep] in R. destruct (is_call (WSend a)) eqn:IC; [destruct a; discriminate|]. unfold wire_step in R. cbn [wstep] in R. rewrite I1 in R. unfold lift in R. destruct (act _ _ a) as [[? ?]|]; [discriminate|reflexivity]. }
  assert (ES : strand (w_s (p_w s)) = []).
  { pose proof (IN AStrand eq_refl eq_refl) as H1. pose proof (IN AUserRet eq_refl eq_refl) as H2. cbn [act] in *. destruct (strand (w_s (p_w s))) as [|f st] eqn:ES; [reflexivity|exfalso]. destruct f; try discriminate H2; destruct (exec _ _ _ _) as [[? ?] ?]; discriminate. }
  split; [|split; [exact ES|split]].
  - rewrite Forall_forall. intros [f|] HI; [exfalso|reflexivity]. apply In_nth_error in HI. destruct HI as (i & HI).
    pose proof (IN (AThread i) eq_refl eq_refl) as H1. cbn [act] in H1. rewrite HI in H1. destruct (exec _ _ _ _) as [[? ?] ?]; discriminate.
  - pose proof (IN ATask eq_refl eq_refl) as H1. cbn [act] in H1. rewrite ES in H1. destruct (posted _); [reflexivity|discriminate].
  - destruct (writes (w_s (p_w s))) as [|w ws] eqn:E; [reflexivity|exfalso]. destruct (KL _ _ eq_refl) as (-> & L).
    destruct (Nat.eq_dec (w_off (p_w s)) (length (concat w))) as [EQ|NE].
    + specialize (R (PWire WDone) eq_refl). cbn [pstep is_call] in R. unfold wire_step in R. cbn [wstep] in R. rewrite E, EQ, Nat.eqb_refl in R. unfold lift in R. cbn [act] in R. rewrite ES, E in R. cbn [nth_error] in R. discriminate R.
    + specialize (R (PWire (WTake 1)) eq_refl). cbn [pstep is_call] in R. unfold wire_step in R. cbn [wstep] in R. rewrite E, O in R. assert (X : (w_off (p_w s) + 1 <=? length (concat w)) = true) by (apply Nat.leb_le; lia). rewrite X in R. discriminate R.
Qed.
Lemma rest_handler {S} c (u : unpk S) s0 s th : at_rest c u s0 s -> pc_batch c = false -> P_Handle.W (hcfg c) (p_h s) -> (forall ms, M_Handle.h_i (p_h s) <> M_Handle.IOn ms) -> P_Handle.I98 (hcfg c) (p_h s) th ->
  M_Handle.h_i (p_h s) = M_Handle.IIdle /\ M_Handle.h_buf (p_h s) = [] /\ S_Handle.pending (p_h s) = [].
Proof.
  intros R B (W1 & W2 & _) NO J.
  assert (IN : forall a, onward (PHand a) = true -> M_Handle.step (hcfg c) (p_h s) a = None).
  { intros a O. specialize (R _ O). cbn [pstep] in R. destruct a; try discriminate O; (destruct (M_Handle.step _ _ _) as [[? ?]|]; [discriminate R|reflexivity]). }
  assert (BC : M_Handle.batch (hcfg c) = false) by exact B.
  assert (EI : M_Handle.h_i (p_h s) = M_Handle.IIdle).
  { pose proof (IN M_Handle.HMove eq_refl) as X1. pose proof (IN M_Handle.HTest eq_refl) as X2. pose proof (IN M_Handle.HPost eq_refl) as X3. cbn [M_Handle.step] in *. destruct (M_Handle.h_i (p_h s)) as [|ms|ms sz| |]; try discriminate; [reflexivity|]. destruct (NO ms eq_refl). }
  assert (ED : M_Handle.h_d (p_h s) = M_Handle.DIdle).
  { pose proof (IN M_Handle.HMark eq_refl) as X1. pose proof (IN (M_Handle.HRet true) eq_refl) as X2. pose proof (IN M_Handle.HSet eq_refl) as X3. pose proof (IN M_Handle.HClear eq_refl) as X4. pose proof (IN M_Handle.HRepost eq_refl) as X5.
    cbn [M_Handle.step] in *. rewrite EI in *. rewrite BC in X2. destruct (M_Handle.h_d (p_h s)); try discriminate. reflexivity. }
  assert (EP : M_Handle.h_posted (p_h s) = 0).
  { pose proof (IN M_Handle.HRun eq_refl) as X1. cbn [M_Handle.step] in X1. rewrite ?EI, ?ED, BC in X1. destruct (M_Handle.h_posted (p_h s)); [reflexivity|]. destruct (M_Handle.h_disp (p_h s)); [discriminate|]. destruct (M_Handle.h_buf (p_h s)); discriminate. }
  assert (ET : M_Handle.h_timer (p_h s) = false).
  { pose proof (IN M_Handle.HFire eq_refl) as X1. cbn [M_Handle.step] in X1. rewrite ?EI, ?ED in X1. destruct (M_Handle.h_timer (p_h s)); [discriminate|reflexivity]. }
  assert (EB : M_Handle.h_disp (p_h s) = false).
  { destruct (M_Handle.h_disp (p_h s)) eqn:EB; [|reflexivity]. destruct (W1 ED eq_refl) as [X|X]; [congruence|lia]. }
  assert (EH : M_Handle.held (p_h s) ++ M_Handle.h_buf (p_h s) = []).
  { destruct (M_Handle.held (p_h s) ++ M_Handle.h_buf (p_h s)) eqn:EH; [reflexivity|]. destruct W2 as [X|[X|[X|[X|X]]]]; try congruence; try lia; discriminate. }
  apply app_eq_nil in EH as (E1 & E2). split; [exact EI|]. split; [exact E2|]. unfold S_Handle.pending. rewrite E1, E2, EI. reflexivity.
Qed.
Lemma Q_rest {S} c (u : unpk S) s0 t s : receives_frames (pc c) u s0 -> never_stops u s0 -> pc_batch c = false -> (0 < pc_lim c)%N ->
  Q c u s0 t s -> at_rest c u s0 s -> ready (w_s (p_w s)) = true -> w_open (p_w s) = true -> failed (labels (wtr t)) = false -> p_live s = true ->
  ~ In WGlitch (cur (wtr t)) -> no_prior (labels (wtr t)) -> whole_before (wtr t) -> all_delivered (pc c) t.
Proof.
  intros RF NS B PL J R RD OP NF LV G NP (k0 & EK0).
  assert (EK : exists k, concat (handed (labels (former (wtr t)))) = concat (firstn k (frames (labels (wtr t)))) /\ (ups (wtr t) <= 1 -> k = 0)).
  { destruct (le_lt_dec (ups (wtr t)) 1) as [U|U]; [|exists k0; split; [exact EK0|lia]]. exists 0. rewrite (P_Wire.z_first _ _ (q_z _ _ _ _ _ J) U). auto. }
  destruct EK as (k & EK & K1). destruct (Q_received _ _ _ _ _ RF J G NP k EK) as (bodies & more & AC & FB & SK & EM & n & EN & NN).
  pose proof (rest_sender _ _ _ _ _ J R OP) as ID. pose proof (P_Wire.z_k _ _ (q_z _ _ _ _ _ J)) as [KI KO KL KW].
  assert (SB : sb (w_s (p_w s)) = []).
  { destruct (sb (w_s (p_w s))) as [|x l] eqn:SB; [reflexivity|exfalso]. apply (L_Send.idle_no_wake _ _ KI ID). apply (L_Send.i_wake _ _ KI); [congruence|exact RD|exact NF]. }
  destruct ID as (_ & ES & _ & EW).
  assert (MI : L_Send.mid (w_s (p_w s)) = []) by (unfold L_Send.mid; rewrite ES; reflexivity).
  assert (MO : more = []).
  { destruct (KW G) as [(W1 & W2)|(W0 & _)]; [|congruence]. unfold P_Wire.flight in *. rewrite EW in *. cbn [concat] in *. rewrite firstn_nil, app_nil_r in *. rewrite W1, W2 in EM. rewrite <- (app_nil_r (concat (sent (cur (wtr t))))) in EM at 1. apply app_inv_head in EM. symmetry. exact EM. }
  rewrite MO, SB, MI in SK. cbn [app concat] in SK. rewrite app_nil_r in SK.
  destruct (q_h _ _ _ _ _ J) as (th & HH). pose proof HH as [HJ (HB1 & HB2) HO HR HN]. destruct (rest_handler _ _ _ _ _ R B (proj1 HJ) HO HJ) as (EI & EB & EP).
  destruct (q_rx _ _ _ _ _ J) as (ds & o & R1 & R2 & R3). destruct (NS _ _ _ _ R2) as (us & sp & tt & lim & ER & L1 & L2 & FD).
  assert (NE : p_net s = []).
  { destruct (p_net s) as [|b rest] eqn:NE; [reflexivity|exfalso]. specialize (R (PRead 1) eq_refl). cbn [pstep] in R.
    assert (MR : may_read c s = true).
    { unfold may_read. rewrite LV, EI, ER. cbn [andb]. rewrite HB1, EB. cbn [M_Handle.bytes]. destruct (N.ltb_spec 0 (pc_lim c)); [apply orb_true_r|lia]. }
    rewrite MR, NE in R. cbn [length] in R. cbn [andb Nat.ltb Nat.leb firstn] in R. destruct (FD [b]) as (st' & o' & FE); [unfold lenN; cbn; lia|unfold lenN; cbn; lia|]. rewrite FE in R. unfold got in R.
    destruct (map out_msgs o') as [|ms oss]; [discriminate|]. cbn [M_Handle.step hcfg M_Handle.sync M_Handle.passive] in R. rewrite EI in R. destruct (M_Handle.is_nil _); discriminate R. }
  specialize (NN NE). unfold S_Frame.expected in EN. rewrite L_Frame.complete_all in EN by (rewrite NN, SK; apply N.le_refl).
  exists (firstn k bodies), (skipn k bodies). split; [rewrite firstn_skipn; exact AC|]. split; [|split; [rewrite EK, (proj1 AC); unfold S_Frame.wire; rewrite firstn_map; reflexivity|intros U; rewrite (K1 U); reflexivity]].
  rewrite HN, EN. destruct HJ as [_ HJ]. rewrite HR, EP, app_nil_r in HJ. rewrite <- HJ, number_length, <- EN. apply firstn_all.
Qed.
(** Once the applications call nothing any more, everything comes to rest, whatever the order; if the link is up then and its writes
    never failed, everything that was accepted has been handled. *)
Theorem C134_all_handled_at_rest : forall (S : Type) c (u : unpk S) s0 n l s t,
  cfg_ok (pc c) = true -> (bufsz (pc c) < head_range (pc c))%N -> receives_frames (pc c) u s0 -> never_stops u s0 -> clean_after_break (pc c) u s0 ->
  pc_batch c = false -> (0 < pc_lim c)%N -> Forall (call_ok c) l -> prun c u s0 (p_init u s0 n) l = Some (s, t) ->
  Acc (next c u s0) s /\
  (at_rest c u s0 s -> ready (w_s (p_w s)) = true -> w_open (p_w s) = true -> failed (labels (wtr t)) = false -> p_live s = true ->
   ~ In WGlitch (cur (wtr t)) -> no_prior (labels (wtr t)) -> ups (wtr t) <= 1 \/ single_items (labels (wtr t)) -> all_delivered (pc c) t).
Proof.
  intros S c u s0 n l s t HC HB RF NS CB B PL CO E. pose proof (Q_run c u s0 l HC HB CB CO [] _ _ _ (Q_init c u s0 n) E) as J. split; [exact (Q_acc _ _ _ HC HB CB B _ _ J)|].
  intros R RD OP NF LV G NP D. exact (Q_rest _ _ _ _ _ RF NS B PL J R RD OP NF LV G NP (Q_whole _ _ _ _ _ J NP D)).
Qed.
(** for the unpackers of the library *)
Theorem C134_unpackers : forall c g mem n l,
  cfg_ok (pc c) = true -> (bufsz (pc c) < head_range (pc c))%N -> pc_batch c = false -> (0 < pc_lim c)%N -> Forall (call_ok c) l ->
  let claim := fun S (u : unpk S) s0 => forall s t, prun c u s0 (p_init u s0 n) l = Some (s, t) ->
    Acc (next c u s0) s /\
    (at_rest c u s0 s -> ready (w_s (p_w s)) = true -> w_open (p_w s) = true -> failed (labels (wtr t)) = false -> p_live s = true ->
     ~ In WGlitch (cur (wtr t)) -> no_prior (labels (wtr t)) -> ups (wtr t) <= 1 \/ single_items (labels (wtr t)) -> all_delivered (pc c) t) in
  (lenN mem = bufsz (pc c) -> claim _ (M_Unpacker.unpacker (pc c)) (M_Unpacker.unp_init (pc c) mem)) /\
  (lenN mem = M_Flex.flex_raw_size -> claim _ (M_Flex.flexible_unpacker (pc c) g) (M_Flex.flex_init (pc c) mem)) /\
  (stripped (pc c) = true -> lenN mem = head_len (pc c) -> claim _ (M_NonCopy.non_copy_unpacker (pc c) g) (M_NonCopy.nc_init mem)).
Proof.
  intros c g mem n l HC HB B PL CO claim. split; [|split].
  - intros L s t E. apply (C134_all_handled_at_rest _ c _ _ n l s t); auto; [apply P_Unpacker.C01_unpacker_delivers_exactly|apply P_Unpacker.C02_unpacker_never_stops|apply P_Unpacker.C60_unpacker_clean_after_break]; assumption.
  - intros L s t E. destruct (P_Unpacker.C04_flexible_unpacker_4000 (pc c) g mem HC L) as (R1 & R2 & _ & R3). apply (C134_all_handled_at_rest _ c _ _ n l s t); auto.
  - intros ST L s t E. destruct (P_Unpacker.C05_non_copy_unpacker (pc c) g mem HC ST L) as (R1 & R2 & _ & R3). apply (C134_all_handled_at_rest _ c _ _ n l s t); auto.
Qed.
(** the execution of C133_example goes on until nothing is left *)
Definition rest_acts : list pact := ex_acts ++ go ([WTake 1; WDone; WSend AUserRet] ++ repeat (WSend AStrand) 4 ++ [WTake 2; WDone; WSend AUserRet] ++ repeat (WSend AStrand) 4 ++ [WTake 2; WDone; WSend AUserRet] ++ repeat (WSend AStrand) 6) ++
  [PRead 5] ++ handle1.
Example C134_example : exists s t, prun (ex_c 0) ex_u ex_0 (p_init ex_u ex_0 1) rest_acts = Some (s, t) /\ handled_now t = [abcd; xy ++ xy] /\ asked t = [abcd; xy ++ xy] /\ ups (wtr t) = 1 /\ no_prior (labels (wtr t)) /\
  ready (w_s (p_w s)) = true /\ w_open (p_w s) = true /\ failed (labels (wtr t)) = false /\ p_live s = true /\ existsb (fun e => match e with WGlitch => true | _ => false end) (wtr t) = false /\ at_rest (ex_c 0) ex_u ex_0 s.
Proof.
  do 2 eexists. split; [vm_compute; reflexivity|]. do 9 (split; [vm_compute; reflexivity || (vm_compute; repeat constructor)|]).
  intros a O. destruct a as [i x p ovf|x p ovf|i|a|k| |a]; try discriminate O.
  - destruct a as [a|k| | | | | | |]; try discriminate O; [|reflexivity|reflexivity]. destruct a as [i it p ovf|i| | | |it p ovf| |k ok|i|]; try discriminate O; try reflexivity. destruct i as [|[|i]]; reflexivity.
  - destruct k; reflexivity.
  - destruct a; try discriminate O; reflexivity.
Qed.
Print Assumptions C134_all_handled_at_rest.
Print Assumptions C134_unpackers.
