(** C150: over UDP, everything handled was sent, whole, by the address it is labelled with. C151: what is handled is what was given to
    the send functions. *)
From Coq Require Import List NArith Bool Arith Lia Permutation ZifyBool ZifyNat ZifyN.
From Verif Require Import M_Bytes L_Bytes M_Config L_Frame M_Packer S_Packer L_Packer S_Frame M_FTimer M_RecvFlow M_Dispatch L_Dispatch M_UdpSend P_UdpSend M_UdpRx L_Simple M_UdpPath S_UdpPath.
From Verif Require M_Handle S_Handle P_Handle.
Import ListNotations.
Open Scope nat_scope.

(** ** lists *)
Lemma sublist_nil {A} (m : list A) : sublist [] m.
Proof. destruct m; exact I. Qed.
Lemma sublist_nil_r {A} (l : list A) : sublist l [] -> l = [].
Proof. destruct l; [reflexivity|intros []]. Qed.
Lemma sublist_skip {A} (y : A) : forall l m, sublist l m -> sublist l (y :: m).
Proof. intros [|x l] m H; [apply sublist_nil|right; exact H]. Qed.
Lemma sublist_refl {A} : forall l : list A, sublist l l.
Proof. induction l; [apply sublist_nil|left; auto]. Qed.
Lemma sublist_snoc {A} (y : A) : forall m l, sublist l m -> sublist (l ++ [y]) (m ++ [y]).
Proof.
  induction m as [|z m IH]; intros l H.
  - apply sublist_nil_r in H as ->. cbn. auto.
  - destruct l as [|x l]; cbn [app].
    + apply sublist_skip. exact (IH [] (sublist_nil m)).
    + destruct H as [(-> & H)|H]; [left; split; [reflexivity|exact (IH _ H)]|right; exact (IH _ H)].
Qed.
Lemma sublist_drop {A} (y : A) : forall m a b, sublist (a ++ y :: b) m -> sublist (a ++ b) m.
Proof.
  induction m as [|z m IH]; intros a b H; [destruct a; destruct H|].
  destruct a as [|x a]; cbn [app] in *.
  - destruct H as [(-> & H)|H]; [apply sublist_skip; exact H|apply sublist_skip; exact (IH [] b H)].
  - destruct H as [(-> & H)|H]; [left; split; [reflexivity|exact (IH _ _ H)]|right; exact (IH (x :: a) b H)].
Qed.
Lemma upd_length {A} (l : list A) : forall i x, length (upd l i x) = length l.
Proof. induction l as [|y l IH]; intros [|i] x; cbn; auto. Qed.
Lemma upd_same {A} (l : list A) : forall i x y, nth_error l i = Some y -> nth_error (upd l i x) i = Some x.
Proof. induction l as [|z l IH]; intros [|i] x y H; cbn in *; try discriminate; [reflexivity|eauto]. Qed.
Lemma upd_other {A} (l : list A) : forall i j x, i <> j -> nth_error (upd l i x) j = nth_error l j.
Proof. induction l as [|z l IH]; intros [|i] [|j] x H; cbn in *; try reflexivity; [congruence|apply IH; congruence]. Qed.
Lemma remove_at_in {A} k (l : list A) x y : nth_error l k = Some x -> In y (remove_at k l) -> In y l.
Proof. intros H I1. eapply Permutation_in; [symmetry; exact (remove_at_perm k l x H)|right; exact I1]. Qed.
Lemma nth_error_repeat_some {A} (x y : A) n i : nth_error (repeat x n) i = Some y -> y = x.
Proof. intros H. apply nth_error_In in H. apply repeat_spec in H. exact H. Qed.

(** ** traces *)
Lemma asked_app c i a b : asked c i (a ++ b) = asked c i a ++ asked c i b.
Proof. induction a as [|[] a IH]; cbn [app asked]; rewrite ?IH, ?app_assoc; auto. Qed.
Lemma contents_app i a b : contents i (a ++ b) = contents i a ++ contents i b.
Proof. induction a as [|[] a IH]; cbn [app contents]; rewrite ?IH, ?app_assoc; auto. Qed.
Lemma sent_app a b : sent (a ++ b) = sent a ++ sent b.
Proof. induction a as [|[] a IH]; cbn [app sent]; rewrite ?IH, ?app_assoc; auto. Qed.
Lemma sent_by_app i a b : sent_by i (a ++ b) = sent_by i a ++ sent_by i b.
Proof. induction a as [|[] a IH]; cbn [app sent_by]; rewrite ?IH, ?app_assoc; auto. Qed.
Lemma handled_app a b : handled (a ++ b) = handled a ++ handled b.
Proof. induction a as [|[] a IH]; cbn [app handled]; rewrite ?IH, ?app_assoc; auto. Qed.
Lemma seen_quiet c tab es : (forall i, asked c i (seen tab es) = []) /\ sent (seen tab es) = [] /\ (forall i, sent_by i (seen tab es) = []) /\ (forall i, contents i (seen tab es) = []).
Proof. induction es as [|[] es (I1 & I2 & I3 & I4)]; cbn; auto. Qed.
Lemma seen_handled tab es : handled (seen tab es) = map (body tab) (S_Handle.handled es).
Proof. induction es as [|[] es IH]; cbn; rewrite ?map_app, ?IH; reflexivity. Qed.
Lemma count_sent t i d : count (N.of_nat i, d) (sent t) = count_occ (list_eq_dec Byte.byte_eq_dec) (sent_by i t) d.
Proof.
  unfold count. induction t as [|[] t IH]; cbn [sent sent_by]; try exact IH; [reflexivity|].
  rewrite count_occ_app. cbn [count_occ]. destruct (dgram_dec (N.of_nat i0, d0) (N.of_nat i, d)) as [E|E].
  - assert (i = i0) by (injection E; lia). assert (d0 = d) by congruence. subst. rewrite Nat.eqb_refl, IH. cbn [count_occ]. destruct (list_eq_dec Byte.byte_eq_dec d d); [reflexivity|congruence].
  - rewrite IH. destruct (Nat.eqb_spec i i0) as [->|]; [|reflexivity]. cbn [count_occ]. destruct (list_eq_dec Byte.byte_eq_dec d0 d) as [->|]; [congruence|reflexivity].
Qed.

(** ** packing *)
Definition good (c : cfg) (d : list byte) : Prop := d <> [] /\ (lenN d <= bufsz c)%N.
Lemma frame_good c m : fits c m = true -> good c (frame c m).
Proof.
  intros F. unfold fits in F. apply andb_prop in F as [F _]. unfold good. rewrite lenN_frame. split; [|lia].
  intros E. apply (f_equal (@lenN byte)) in E. rewrite lenN_frame in E. change (lenN (@nil byte)) with 0%N in E. destruct (head_len_cases c) as [H|H]; lia.
Qed.
Lemma as_datagram_good c n m d : as_datagram c n m = Some d -> good c d.
Proof.
  unfold as_datagram. destruct m as [|x m]; [discriminate|]. destruct n.
  - destruct (N.leb_spec (lenN (x :: m)) (bufsz c)); [|discriminate]. intros E. inversion E; subst. split; [discriminate|assumption].
  - destruct (fits c (x :: m)) eqn:F; [|discriminate]. intros E. inversion E; subst. apply frame_good. exact F.
Qed.
Lemma pack_spec c bs n : cfg_ok c = true -> Forall readable bs -> Forall (fun b => (blen b < size_range c)%N) bs ->
  exists b, pack_array c (Some bs) n = Ok (b, match as_datagram c n (given bs) with Some d => d | None => [] end).
Proof.
  intros HC F1 F2. unfold as_datagram, given. destruct n.
  - rewrite pack_array_native by assumption. cbv zeta. destruct (concat (map buf_bytes bs)) as [|x m] eqn:E.
    + destruct (lenN [] <=? bufsz c)%N; eexists; reflexivity.
    + destruct (lenN (x :: m) <=? bufsz c)%N; eexists; reflexivity.
  - rewrite pack_array_ok by assumption. cbv zeta. destruct (concat (map buf_bytes bs)) as [|x m] eqn:E; destruct (fits c _); eexists; reflexivity.
Qed.
Lemma heart_spec c nd d : cfg_ok c = true -> pack_heartbeat c nd = Ok d -> d = frame c [] /\ good c d.
Proof.
  intros HC E. destruct (cfg_ok_facts c HC) as (C1 & _). unfold pack_heartbeat in E.
  assert (R : (head_len c + 0 < head_range c)%N). { unfold head_range, head_len. destruct (huge c); reflexivity. }
  rewrite pack_header_ok in E; [|assumption|unfold max_body; lia|exact R]. assert (X : d = frame c []) by (inversion E; unfold frame, head_image; rewrite app_nil_r; reflexivity). split; [exact X|].
  rewrite X. apply frame_good. unfold fits. change (lenN (@nil byte)) with 0%N. lia.
Qed.

(** ** one sender *)
(** what is still to leave the host *)
Definition pend (x : snd1) : list N := (if s_left x then [] else u_fly (s_u x)) ++ u_buf (s_u x).
Definition line (x : snd1) : list (list byte) := map (content (s_tab x)) (pend x).
Record SB (x : snd1) : Prop := {
  sb_inv : uinv (s_u x); sb_left : s_left x = true -> u_fly (s_u x) <> [];
  sb_num : Forall (fun m => N.to_nat m < length (s_tab x)) (u_fly (s_u x) ++ u_buf (s_u x)) }.
Lemma fly_one s : uinv s -> length (u_fly s) <= 1.
Proof. unfold uinv, utoks. destruct (u_flag s); cbn [b2n]; lia. Qed.
Definition plain_act (a : uact) : Prop := match a with AEnq _ _ | ADone _ _ => False | _ => True end.
Lemma send_keeps s a s1 tr : uinv s -> plain_act a -> ustep false s a = Some (s1, tr) -> u_fly s1 ++ u_buf s1 = u_fly s ++ u_buf s /\ (u_fly s <> [] -> u_fly s1 = u_fly s).
Proof.
  intros I P H. destruct a; cbn [plain_act] in P; try destruct P; cbn [ustep] in H.
  - destruct (u_chk s); [discriminate|]. inversion H; subst. destruct (u_ready s); split; reflexivity.
  - destruct (u_ld s); [discriminate|]. inversion H; subst. destruct (u_flag s); split; reflexivity.
  - destruct (u_pc s); try discriminate. destruct (u_post s); [discriminate|]. inversion H; subst. split; reflexivity.
  - unfold ustrand in H. destruct (u_pc s) as [|b| | | | | |] eqn:PC; try discriminate; try (inversion H; subst; split; reflexivity).
    + destruct (negb b && u_flag s); inversion H; subst; [|destruct b]; split; reflexivity.
    + cbn [andb] in H. destruct (u_buf s) as [|m q] eqn:B; inversion H; subst; fields; [rewrite B; split; reflexivity|].
      unfold uinv, utoks in I. rewrite PC in I. cbn [hold] in I. destruct (u_fly s) as [|y l] eqn:F; [cbn; split; [reflexivity|congruence]|cbn [length] in I; destruct (u_flag s); cbn [b2n] in I; lia].
  - destruct (u_res s); [discriminate|]. inversion H; subst. destruct (u_buf s) eqn:B; fields; rewrite ?B; split; reflexivity.
  - inversion H; subst. split; reflexivity.
  - destruct (ft_expire (u_tm s)); [|discriminate]. inversion H; subst. split; reflexivity.
  - destruct (ft_begin _ _ _) as [[f b]|]; [|discriminate]. inversion H; subst. destruct (b && u_win s); split; reflexivity.
  - destruct (ft_step _ _); [|discriminate]. inversion H; subst. split; reflexivity.
  - destruct (u_open s); [|discriminate]. inversion H; subst. split; reflexivity.
  - destruct (u_open s); [discriminate|]. inversion H; subst. split; reflexivity.
  - destruct (u_open s); [discriminate|]. destruct (u_pc s); try discriminate. destruct (u_fly s) eqn:F; [|discriminate]. destruct (u_post s); [|discriminate]. destruct (u_res s); [|discriminate]. destruct (ft_quiet (u_tm s)); [|discriminate]. inversion H; subst. fields. rewrite ?F. split; reflexivity.
Qed.
Lemma done_keeps s k r s1 tr : uinv s -> ustep false s (ADone k r) = Some (s1, tr) -> exists m, u_fly s = [m] /\ u_fly s1 = [] /\ u_buf s1 = u_buf s.
Proof.
  intros I H. cbn [ustep] in H. destruct (u_pc s) eqn:P; try discriminate. destruct (nth_error (u_fly s) k) as [m|] eqn:K; [|discriminate].
  pose proof (fly_one s I) as L. destruct (u_fly s) as [|y [|z l]] eqn:F; [destruct k; discriminate| |cbn [length] in L; lia]. destruct k as [|k]; [|destruct k; discriminate].
  exists y. split; [reflexivity|]. destruct r; [| |destruct (u_open s); [discriminate|]]; inversion H; subst; fields; cbn; split; reflexivity.
Qed.
(** what a step does to a sender *)
Definition schange (c : cfg) (i : nat) (a : qact) (x x1 : snd1) (t1 : list qev) : Prop :=
  (s_tab x1 = s_tab x /\ pend x1 = pend x /\ asked c i t1 = [] /\ sent_by i t1 = []) \/
  (exists p d, good c d /\ asked c i t1 = [d] /\ sent_by i t1 = [] /\ s_tab x1 = s_tab x ++ [d] /\
     let m := N.of_nat (length (s_tab x)) in
     if p : bool then (exists bs n, a = QCall i bs n true) /\ exists u v, pend x = u ++ v /\ pend x1 = u ++ m :: v else pend x1 = pend x ++ [m]) \/
  (exists m, s_tab x1 = s_tab x /\ pend x = m :: pend x1 /\ asked c i t1 = [] /\ sent_by i t1 = [content (s_tab x) m]) \/
  (exists m k r, s_tab x1 = s_tab x /\ pend x = m :: pend x1 /\ asked c i t1 = [] /\ sent_by i t1 = [] /\ a = QSend i (ADone k r) /\ r <> ROk).
Lemma same_change c i a x t1 : asked c i t1 = [] -> sent_by i t1 = [] -> schange c i a x x t1.
Proof. left. auto. Qed.
Lemma queue_step c s i x p d s1 a t1 : nth_error (q_snd s) i = Some x -> SB x -> good c d -> queue s i x p d = Some s1 -> (p = true -> exists bs n, a = QCall i bs n true) -> asked c i t1 = [d] -> sent_by i t1 = [] ->
  exists x1, q_snd s1 = upd (q_snd s) i x1 /\ SB x1 /\ schange c i a x x1 t1 /\ q_net s1 = q_net s /\ q_rx s1 = q_rx s /\ q_tab s1 = q_tab s /\ q_h s1 = q_h s.
Proof.
  intros N B G Q AP AT ST. unfold queue in Q. destruct (ustep false (s_u x) _) as [[u e]|] eqn:E; [|discriminate]. inversion Q; subst; clear Q.
  destruct (uinv_step _ _ _ _ _ (sb_inv _ B) E) as (U & _). cbn [ustep] in E. inversion E; subst; clear E.
  eexists. split; [reflexivity|]. split; [|split; [|repeat split]].
  - split; cbn [s_u s_left s_tab]; fields; [exact U|apply B|]. pose proof (sb_num _ B) as F. rewrite app_length. cbn [length]. apply Forall_app in F as [F1 F2].
    assert (W : forall l, Forall (fun m => N.to_nat m < length (s_tab x)) l -> Forall (fun m => N.to_nat m < length (s_tab x) + 1) l) by (intros l; apply Forall_impl; intros; lia).
    apply Forall_app. split; [apply W; exact F1|]. destruct p; [constructor; [lia|apply W; exact F2]|apply Forall_app; split; [apply W; exact F2|constructor; [lia|constructor]]].
  - right. left. exists p, d. split; [exact G|]. split; [exact AT|]. split; [exact ST|]. cbn [s_tab]. split; [reflexivity|]. unfold pend. cbn [s_left s_u]. fields. destruct p.
    + split; [exact (AP eq_refl)|]. exists (if s_left x then [] else u_fly (s_u x)), (u_buf (s_u x)). split; reflexivity.
    + rewrite app_assoc. reflexivity.
Qed.
Lemma snd_step c s a s1 t1 : cfg_ok (qc c) = true -> call_ok (qc c) a -> (forall i x, nth_error (q_snd s) i = Some x -> SB x) -> qstep c s a = Some (s1, t1) ->
  length (q_snd s1) = length (q_snd s) /\
  (forall i, length (q_snd s) <= i -> sent_by i t1 = []) /\
  forall i x1, nth_error (q_snd s1) i = Some x1 -> exists x, nth_error (q_snd s) i = Some x /\ SB x1 /\ schange (qc c) i a x x1 t1.
Proof.
  intros HC CK B H.
  assert (SAME : q_snd s1 = q_snd s -> (forall i, asked (qc c) i t1 = []) -> (forall i, sent_by i t1 = []) -> 
    length (q_snd s1) = length (q_snd s) /\ (forall i, length (q_snd s) <= i -> sent_by i t1 = []) /\
    forall i x1, nth_error (q_snd s1) i = Some x1 -> exists x, nth_error (q_snd s) i = Some x /\ SB x1 /\ schange (qc c) i a x x1 t1).
  { intros E1 E2 E3. rewrite E1. split; [reflexivity|]. split; [auto|]. intros i x1 N. exists x1. split; [exact N|]. split; [exact (B _ _ N)|]. apply same_change; auto. }
  assert (ONE : forall i x x1, nth_error (q_snd s) i = Some x -> q_snd s1 = upd (q_snd s) i x1 -> SB x1 -> schange (qc c) i a x x1 t1 -> (forall j, j <> i -> asked (qc c) j t1 = [] /\ sent_by j t1 = []) ->
    length (q_snd s1) = length (q_snd s) /\ (forall i, length (q_snd s) <= i -> sent_by i t1 = []) /\
    forall i x1, nth_error (q_snd s1) i = Some x1 -> exists x, nth_error (q_snd s) i = Some x /\ SB x1 /\ schange (qc c) i a x x1 t1).
  { intros i x x1 N E1 B1 C1 O. rewrite E1. split; [apply upd_length|]. split.
    - intros j L. apply O. intros ->. apply nth_error_None in L. congruence.
    - intros j y1 N1. destruct (Nat.eq_dec i j) as [<-|NE].
      + rewrite (upd_same _ _ _ _ N) in N1. inversion N1; subst. eauto.
      + rewrite upd_other in N1 by exact NE. exists y1. split; [exact N1|]. split; [exact (B _ _ N1)|]. apply same_change; apply O; congruence. }
  assert (GOT : forall net ev, got c s net ev = Some (s1, t1) -> q_snd s1 = q_snd s /\ (forall i, asked (qc c) i t1 = []) /\ (forall i, sent_by i t1 = [])).
  { intros net ev G. unfold got in G. destruct (udp_step _ _ _ _) as [[rx o]|]; [|discriminate]. destruct (uo_msgs o) as [|m ms]; [inversion G; subst; auto|]. destruct (M_Handle.step _ _ _) as [[h es]|]; [|discriminate]. inversion G; subst. cbn [q_snd].
    destruct (seen_quiet (qc c) (q_tab s ++ m :: ms) es) as (Q1 & _ & Q3 & _). auto. }
  destruct a as [i bs n p|i|i a|i|k|k|k|e|a]; cbn [qstep] in H.
  - destruct (nth_error (q_snd s) i) as [x|] eqn:N; [|discriminate]. destruct CK as [F1 F2]. destruct (pack_spec (qc c) bs n HC F1 F2) as (b & P). rewrite P in H.
    destruct (as_datagram (qc c) n (given bs)) as [[|y d]|] eqn:AD.
    + apply as_datagram_good in AD as [AD _]. congruence.
    + destruct (queue s i x p (y :: d)) as [s2|] eqn:Q; [|discriminate]. inversion H; subst; clear H.
      destruct (queue_step (qc c) s i x p (y :: d) s1 (QCall i bs n p) [QAsk i p n bs] N (B _ _ N) (as_datagram_good _ _ _ _ AD) Q) as (x1 & E1 & B1 & C1 & _); [intros ->; eauto|cbn; rewrite Nat.eqb_refl, AD; reflexivity|reflexivity|].
      eapply ONE; try eassumption. intros j NE. cbn. destruct (Nat.eqb_spec j i); [congruence|auto].
    + inversion H; subst; clear H. apply SAME; [reflexivity| |reflexivity]. intros j. cbn. rewrite AD. destruct (Nat.eqb j i); reflexivity.
  - destruct (nth_error (q_snd s) i) as [x|] eqn:N; [|discriminate]. destruct (pack_heartbeat (qc c) (qc_nd c)) as [d|] eqn:P; [|discriminate]. destruct (heart_spec _ _ _ HC P) as (-> & G).
    destruct (queue s i x false (frame (qc c) [])) as [s2|] eqn:Q; [|discriminate]. inversion H; subst; clear H.
    destruct (queue_step (qc c) s i x false _ s1 (QBeat i) [QBeatV i] N (B _ _ N) G Q) as (x1 & E1 & B1 & C1 & _); [discriminate|cbn; rewrite Nat.eqb_refl; reflexivity|reflexivity|].
    eapply ONE; try eassumption. intros j NE. cbn. destruct (Nat.eqb_spec j i); [congruence|auto].
  - destruct (nth_error (q_snd s) i) as [x|] eqn:N; [|destruct a; discriminate]. pose proof (B _ _ N) as BX.
    destruct (match a with ADone _ _ => true | _ => false end) eqn:ISD.
    + destruct a as [| | | | |k r| | | | | | | |]; try discriminate ISD. destruct (result_ok (s_left x) r) eqn:RO; [|discriminate]. destruct (ustep false (s_u x) (ADone k r)) as [[u e]|] eqn:E; [|discriminate].
      inversion H; subst; clear H. destruct (uinv_step _ _ _ _ _ (sb_inv _ BX) E) as (U & _). destruct (done_keeps _ _ _ _ _ (sb_inv _ BX) E) as (m & F1 & F2 & F3).
      eapply (ONE i x); [exact N|reflexivity| | |].
      * split; cbn [s_u s_left s_tab]; [exact U|discriminate|]. pose proof (sb_num _ BX) as F. rewrite F1 in F. rewrite F2, F3. cbn [app] in *. inversion F; assumption.
      * destruct (is_fail r) eqn:RF.
        -- right. right. right. exists m, k, r. split; [reflexivity|]. split; [|split; [reflexivity|split; [reflexivity|split; [reflexivity|destruct r; discriminate]]]].
           unfold pend. cbn [s_left s_u]. rewrite F1, F2, F3. destruct r; try discriminate RF; cbn [result_ok] in RO; apply negb_true_iff in RO; rewrite RO; reflexivity.
        -- left. split; [reflexivity|]. split; [|split; reflexivity]. unfold pend. cbn [s_left s_u]. rewrite F2, F3. destruct r; try discriminate RF. cbn [result_ok] in RO. rewrite RO. reflexivity.
      * intros j _. destruct (is_fail r); split; reflexivity.
    + destruct (match a with AEnq _ _ => true | _ => false end) eqn:ISE; [destruct a; discriminate|]. assert (PA : plain_act a) by (destruct a; try exact I; discriminate).
      assert (H' : exists u e, ustep false (s_u x) a = Some (u, e) /\ s1 = mk_q (upd (q_snd s) i (mk_s1 u (s_tab x) (s_left x))) (q_net s) (q_rx s) (q_tab s) (q_h s) /\ t1 = []).
      { destruct a; try discriminate ISD; try discriminate ISE; (destruct (ustep false (s_u x) _) as [[u e]|] eqn:E; [|discriminate]; inversion H; subst; eauto). }
      destruct H' as (u & e & E & -> & ->). clear H. destruct (uinv_step _ _ _ _ _ (sb_inv _ BX) E) as (U & _). destruct (send_keeps _ _ _ _ (sb_inv _ BX) PA E) as (K1 & K2).
      eapply (ONE i x); [exact N|reflexivity| | |split; reflexivity].
      * split; cbn [s_u s_left s_tab]; [exact U| |rewrite K1; apply BX]. intros L. pose proof (sb_left _ BX L) as NE. rewrite (K2 NE). exact NE.
      * left. split; [reflexivity|]. split; [|split; reflexivity]. unfold pend. cbn [s_left s_u]. destruct (s_left x) eqn:L; [|exact K1].
        pose proof (sb_left _ BX L) as NE. rewrite (K2 NE) in K1. apply app_inv_head in K1. rewrite K1. reflexivity.
  - destruct (nth_error (q_snd s) i) as [x|] eqn:N; [|discriminate]. pose proof (B _ _ N) as BX. destruct (u_fly (s_u x)) as [|m l] eqn:F; [discriminate|]. destruct (s_left x) eqn:L; [discriminate|]. inversion H; subst; clear H.
    pose proof (fly_one _ (sb_inv _ BX)) as ONEF. rewrite F in ONEF. destruct l as [|m2 l]; [|cbn [length] in ONEF; lia].
    eapply (ONE i x); [exact N|reflexivity| | |].
    + split; cbn [s_u s_left s_tab]; [apply BX|rewrite F; discriminate|apply BX].
    + right. right. left. exists m. split; [reflexivity|]. split; [|split; [reflexivity|cbn; rewrite Nat.eqb_refl; reflexivity]]. unfold pend. cbn [s_left s_u]. rewrite L, F. reflexivity.
    + intros j NE. cbn. destruct (Nat.eqb_spec j i); [congruence|auto].
  - destruct (nth_error (q_net s) k); [|discriminate]. inversion H; subst. apply SAME; reflexivity.
  - destruct (nth_error (q_net s) k); [|discriminate]. inversion H; subst. apply SAME; reflexivity.
  - destruct (nth_error (q_net s) k) as [[from d]|]; [|discriminate]. destruct (_ && _) in H; [|discriminate]. destruct (GOT _ _ H) as (E1 & E2 & E3). apply SAME; assumption.
  - destruct (may_recv c s); [|discriminate]. destruct (GOT _ _ H) as (E1 & E2 & E3). apply SAME; assumption.
  - assert (H' : exists h es, s1 = mk_q (q_snd s) (q_net s) (q_rx s) (q_tab s) h /\ t1 = seen (q_tab s) es).
    { destruct a; try discriminate; (destruct (M_Handle.step _ _ _) as [[h es]|]; [|discriminate]; inversion H; subst; eauto). }
    destruct H' as (h & es & -> & ->). destruct (seen_quiet (qc c) (q_tab s) es) as (Q1 & _ & Q3 & _). apply SAME; [reflexivity|exact Q1|exact Q3].
Qed.

(** ** the network and the receiver *)
Lemma number_app a b : forall k, number k (a ++ b) = number k a ++ number (k + length a) b.
Proof.
  unfold number. induction a as [|x a IH]; intros k; [cbn [app length]; rewrite Nat.add_0_r; reflexivity|]. cbn [app length seq map combine]. f_equal. rewrite IH, Nat.add_succ_r. reflexivity.
Qed.
Lemma number_length ms : forall k, length (number k ms) = length ms.
Proof. intros k. unfold number. etransitivity; [apply combine_length|]. rewrite seq_length, map_length. apply Nat.min_id. Qed.
Lemma number_body ms : forall pre, map (body (pre ++ ms)) (number (length pre) ms) = ms.
Proof.
  induction ms as [|x ms IH]; intros pre; [reflexivity|]. unfold number. cbn [length seq map combine]. f_equal.
  - unfold body. cbn [fst]. rewrite app_nth2, Nat.sub_diag by lia. reflexivity.
  - change (x :: ms) with ([x] ++ ms). rewrite app_assoc. replace (S (length pre)) with (length (pre ++ [x])) by (rewrite app_length; cbn [length]; lia). apply IH.
Qed.
Lemma prefix_body tab h p : h ++ p = number 0 tab -> map (body tab) h = firstn (length h) tab.
Proof.
  intros E. pose proof (number_body tab []) as N. cbn [app length] in N. rewrite <- E in N. rewrite map_app in N. rewrite <- N at 2. rewrite firstn_app, map_length, Nat.sub_diag. cbn [firstn]. rewrite app_nil_r.
  rewrite <- (map_length (body tab) h). rewrite firstn_all. reflexivity.
Qed.
Record RI (c : qcfg) (tab : list dgram) (h : M_Handle.hst) (th : list M_Handle.ev) (hn : list dgram) : Prop := {
  ri_98 : P_Handle.I98 (hc c) h th; ri_100 : P_Handle.I100 h; ri_on : forall ms, M_Handle.h_i h <> M_Handle.IOn ms;
  ri_rec : S_Handle.received th = number 0 tab; ri_now : hn = firstn (length (S_Handle.handled th)) tab }.
Lemma RI_0 c : RI c [] M_Handle.handle0 [] [].
Proof. constructor; [apply P_Handle.I98_0|split; [reflexivity|exact I]|discriminate|reflexivity|reflexivity]. Qed.
Lemma RI_step c tab h th hn a h' es ms : RI c tab h th hn -> M_Handle.step (hc c) h a = Some (h', es) -> S_Handle.received es = number (length tab) ms ->
  RI c (tab ++ ms) h' (th ++ es) (hn ++ map (body (tab ++ ms)) (S_Handle.handled es)).
Proof.
  intros [H1 H0 H2 H3 H4] E R.
  assert (J : P_Handle.I98 (hc c) h' (th ++ es)). { eapply P_Handle.I98_step; [exact H1| |exact E]. destruct a; try exact I. destruct (M_Handle.h_i h) eqn:Hi; try exact I. destruct (H2 _ eq_refl). }
  constructor; [exact J|eapply P_Handle.I100_step; [exact H0| |exact E]; intros k re ->; exfalso; cbn [M_Handle.step] in E; destruct (M_Handle.h_i h) eqn:Hi; try discriminate; destruct (H2 _ eq_refl)|exact (P_Handle.no_on_step (hc c) _ _ _ _ eq_refl H2 E)| |].
  - rewrite P_Handle.received_app, H3, R, number_app. reflexivity.
  - destruct J as [_ J]. rewrite P_Handle.received_app, H3, R in J. change (length tab) with (0 + length tab) in J. rewrite <- number_app in J. symmetry in J. destruct H1 as [_ H1]. rewrite H3 in H1.
    assert (X : hn = map (body (tab ++ ms)) (S_Handle.handled th)).
    { rewrite H4. rewrite P_Handle.handled_app in J. rewrite <- app_assoc in J. rewrite (prefix_body _ _ _ J), firstn_app.
      assert (L : length (S_Handle.handled th) <= length tab). { apply (f_equal (@length _)) in H1. rewrite number_length, app_length in H1. lia. }
      replace (length (S_Handle.handled th) - length tab) with 0 by lia. cbn [firstn]. rewrite app_nil_r. reflexivity. }
    rewrite X, <- map_app, <- P_Handle.handled_app. exact (prefix_body _ _ _ J).
Qed.
Lemma recv_received c h ms h' es : M_Handle.step (hc c) h (M_Handle.HRecv ms) = Some (h', es) -> S_Handle.received es = ms.
Proof. cbn [M_Handle.step hc M_Handle.sync M_Handle.passive]. destruct (M_Handle.h_i h); try discriminate. destruct (M_Handle.is_nil ms) eqn:E; intros H; inversion H; subst; cbn; apply app_nil_r. Qed.
Lemma other_received c h a h' es : (forall ms, a <> M_Handle.HRecv ms) -> M_Handle.step (hc c) h a = Some (h', es) -> S_Handle.received es = [].
Proof. intros N D. P_Handle.cases D; try reflexivity; try (exfalso; eapply N; reflexivity). all: try discriminate. Qed.

Definition nchange (a : qact) (s s1 : qst) (t1 : list qev) : Prop :=
  (q_net s1 = q_net s /\ q_tab s1 = q_tab s /\ sent t1 = []) \/
  (exists x, q_net s1 = q_net s ++ [x] /\ q_tab s1 = q_tab s /\ sent t1 = [x]) \/
  (exists k x, a = QLose k /\ nth_error (q_net s) k = Some x /\ q_net s1 = remove_at k (q_net s) /\ q_tab s1 = q_tab s /\ sent t1 = []) \/
  (exists k x, a = QDup k /\ nth_error (q_net s) k = Some x /\ q_net s1 = q_net s ++ [x] /\ q_tab s1 = q_tab s /\ sent t1 = []) \/
  (exists k x, a = QTake k /\ nth_error (q_net s) k = Some x /\ q_net s1 = remove_at k (q_net s) /\ q_tab s1 = q_tab s ++ [x] /\ sent t1 = [] /\ (uconn (q_rx s) = true -> fst x = upeer (q_rx s))).
Definition rx_ok (c : cfg) (conn : bool) (peer : addr) (s : ust) : Prop := lenN (uraw s) = bufsz c /\ uconn s = conn /\ upeer s = peer.
Lemma err_step c win e s : rx_ok c (uconn s) (upeer s) s -> ureceiving s = true -> exists s' o, udp_step c win s (RecvError e) = Ok (s', o) /\ uo_msgs o = [] /\ rx_ok c (uconn s) (upeer s) s'.
Proof. intros (L & _ & _) R. unfold udp_step. rewrite R. cbn [negb]. destruct (ignored win e); do 2 eexists; (split; [reflexivity|]); repeat split; exact L. Qed.
Lemma net_step c conn peer s a s1 t1 th : cfg_ok (qc c) = true -> Forall (fun x => good (qc c) (snd x)) (q_net s) -> rx_ok (qc c) conn peer (q_rx s) ->
  qstep c s a = Some (s1, t1) -> (forall hn, RI c (q_tab s) (q_h s) th hn -> exists th1, RI c (q_tab s1) (q_h s1) th1 (hn ++ handled t1)) /\ nchange a s s1 t1 /\ rx_ok (qc c) conn peer (q_rx s1).
Proof.
  intros HC GD RX H.
  assert (KEEP : q_net s1 = q_net s -> q_rx s1 = q_rx s -> q_tab s1 = q_tab s -> q_h s1 = q_h s -> sent t1 = [] -> handled t1 = [] ->
    (forall hn, RI c (q_tab s) (q_h s) th hn -> exists th1, RI c (q_tab s1) (q_h s1) th1 (hn ++ handled t1)) /\ nchange a s s1 t1 /\ rx_ok (qc c) conn peer (q_rx s1)).
  { intros E1 E2 E3 E4 S1 S2. rewrite E2, E3, E4, S2. split; [intros hn R; exists th; rewrite app_nil_r; exact R|]. split; [left; auto|exact RX]. }
  destruct a as [i bs n p|i|i a|i|k|k|k|e|a]; cbn [qstep] in H.
  - destruct (nth_error (q_snd s) i) as [x|] eqn:N; [|discriminate]. destruct (pack_array _ _ _) as [[b [|y d]]|] eqn:P; [| |discriminate].
    + inversion H; subst. apply KEEP; reflexivity.
    + unfold queue in H. destruct (ustep false (s_u x) _) as [[u e]|]; [|discriminate]. inversion H; subst. apply KEEP; reflexivity.
  - destruct (nth_error (q_snd s) i) as [x|] eqn:N; [|discriminate]. destruct (pack_heartbeat _ _) as [d|]; [|discriminate].
    unfold queue in H. destruct (ustep false (s_u x) _) as [[u e]|]; [|discriminate]. inversion H; subst. apply KEEP; reflexivity.
  - assert (H' : exists l, s1 = mk_q l (q_net s) (q_rx s) (q_tab s) (q_h s) /\ sent t1 = [] /\ handled t1 = []).
    { destruct (nth_error (q_snd s) i) as [x|]; [|destruct a; discriminate]. destruct a; try discriminate; try (destruct (result_ok (s_left x) r); [|discriminate]); (destruct (ustep false (s_u x) _) as [[u e]|]; [|discriminate]); inversion H; subst; eexists; (split; [reflexivity|]); try (split; reflexivity).
      destruct (is_fail r); split; reflexivity. }
    destruct H' as (l & -> & S1 & S2). apply KEEP; try reflexivity; assumption.
  - destruct (nth_error (q_snd s) i) as [x|] eqn:N; [|discriminate]. destruct (u_fly (s_u x)) as [|m l]; [discriminate|]. destruct (s_left x); [discriminate|]. inversion H; subst; clear H. cbn [q_tab q_h q_rx handled].
    split; [intros hn R; exists th; rewrite app_nil_r; exact R|]. split; [|exact RX]. right. left. eexists. split; [reflexivity|]. split; reflexivity.
  - destruct (nth_error (q_net s) k) as [x|] eqn:N; [|discriminate]. inversion H; subst; clear H. cbn [q_tab q_h q_rx handled]. split; [intros hn R; exists th; rewrite app_nil_r; exact R|]. split; [|exact RX].
    right. right. left. exists k, x. auto 6.
  - destruct (nth_error (q_net s) k) as [x|] eqn:N; [|discriminate]. inversion H; subst; clear H. cbn [q_tab q_h q_rx handled]. split; [intros hn R; exists th; rewrite app_nil_r; exact R|]. split; [|exact RX].
    right. right. right. left. exists k, x. auto.
  - destruct (nth_error (q_net s) k) as [[from d]|] eqn:N; [|discriminate]. destruct (may_recv c s && _) eqn:MR; [|discriminate]. apply andb_prop in MR as [MR AD]. unfold may_recv in MR. apply andb_prop in MR as [MR _]. apply andb_prop in MR as [MR _].
    destruct RX as (R1 & R2 & R3). assert (UIS : UI (qc c) conn peer (q_rx s)) by (repeat split; assumption).
    destruct (udp_step_ok (qc c) HC (qc_win c) conn peer (q_rx s) (Arrive from d) UIS eq_refl) as (rx & ES & (X1 & X2 & X3 & _)).
    assert (GDD : good (qc c) d). { rewrite Forall_forall in GD. exact (GD _ (nth_error_In _ _ N)). }
    assert (SEEN : udp_seen (qc c) conn peer (Arrive from d) = [(from, d)]).
    { cbn [udp_seen]. destruct GDD as [G1 G2]. destruct d as [|y d]; [congruence|]. rewrite takeN_all by exact G2. f_equal. f_equal. destruct conn; [|reflexivity]. rewrite R2, R3 in AD. cbn [negb orb] in AD. apply N.eqb_eq in AD. congruence. }
    unfold got in H. rewrite ES, SEEN in H. cbn [uo_msgs] in H. destruct (M_Handle.step (hc c) (q_h s) _) as [[h es]|] eqn:HS; [|discriminate]. inversion H; subst; clear H. cbn [q_tab q_h q_rx q_net].
    split; [|split].
    + intros hn R. exists (th ++ es). rewrite seen_handled. eapply RI_step; [exact R|exact HS|]. exact (recv_received _ _ _ _ _ HS).
    + right. right. right. right. exists k, (from, d). destruct (seen_quiet (qc c) (q_tab s ++ [(from, d)]) es) as (_ & Q2 & _). repeat (split; [assumption || reflexivity|]). intros C. rewrite C in AD. cbn [negb orb] in AD. apply N.eqb_eq in AD. exact AD.
    + split; [exact X1|split; assumption].
  - destruct (may_recv c s) eqn:MR; [|discriminate]. unfold may_recv in MR. apply andb_prop in MR as [MR _]. apply andb_prop in MR as [MR _].
    destruct RX as (R1 & R2 & R3). destruct (err_step (qc c) (qc_win c) e (q_rx s)) as (rx & o & ES & OM & (X1 & X2 & X3)); [repeat split; assumption|exact MR|].
    unfold got in H. rewrite ES, OM in H. inversion H; subst; clear H. cbn [q_tab q_h q_rx handled].
    split; [intros hn R; exists th; rewrite app_nil_r; exact R|]. split; [left; auto|]. split; [exact X1|]. split; [exact X2|exact X3].
  - assert (H' : exists h es, s1 = mk_q (q_snd s) (q_net s) (q_rx s) (q_tab s) h /\ t1 = seen (q_tab s) es /\ M_Handle.step (hc c) (q_h s) a = Some (h, es) /\ forall ms, a <> M_Handle.HRecv ms).
    { destruct a; try discriminate; (destruct (M_Handle.step (hc c) (q_h s) _) as [[h es]|] eqn:E; [|discriminate]; inversion H; subst; exists h, es; split; [reflexivity|]; split; [reflexivity|]; split; [reflexivity|discriminate]). }
    destruct H' as (h & es & -> & -> & HS & NR). cbn [q_tab q_h q_rx q_net]. destruct (seen_quiet (qc c) (q_tab s) es) as (_ & Q2 & _).
    split; [|split; [left; auto|exact RX]]. intros hn R. exists (th ++ es). rewrite seen_handled. pose proof (RI_step c (q_tab s) (q_h s) th hn a h es [] R HS) as X. rewrite app_nil_r in X. apply X. exact (other_received _ _ _ _ _ NR HS).
Qed.

(** ** all steps *)
Record QI (c : qcfg) (n : nat) (conn : bool) (peer : addr) (s : qst) (t : list qev) : Prop := {
  qi_len : length (q_snd s) = n;
  qi_sb : forall i x, nth_error (q_snd s) i = Some x -> SB x;
  qi_tab : forall i x, nth_error (q_snd s) i = Some x -> s_tab x = asked (qc c) i t /\ Forall (good (qc c)) (s_tab x);
  qi_perm : forall i x, nth_error (q_snd s) i = Some x -> exists lost, Permutation (sent_by i t ++ lost ++ line x) (asked (qc c) i t);
  qi_none : forall i, n <= i -> sent_by i t = [];
  qi_net : forall x, In x (q_net s ++ q_tab s) -> In x (sent t);
  qi_good : Forall (fun x => good (qc c) (snd x)) (q_net s);
  qi_rx : rx_ok (qc c) conn peer (q_rx s);
  qi_peer : conn = true -> Forall (fun x => fst x = peer) (q_tab s);
  qi_h : exists th, RI c (q_tab s) (q_h s) th (handled t) }.
Lemma line_grow x x1 d : SB x -> s_tab x1 = s_tab x ++ [d] -> forall l, incl l (pend x) -> map (content (s_tab x1)) l = map (content (s_tab x)) l.
Proof.
  intros B E l L. apply map_ext_in. intros m M. unfold content. rewrite E, app_nth1; [reflexivity|]. pose proof (sb_num _ B) as F. rewrite Forall_forall in F. apply F. specialize (L _ M). unfold pend in L.
  apply in_app_or in L as [L|L]; apply in_or_app; [left; destruct (s_left x); [destruct L|exact L]|right; exact L].
Qed.
Lemma content_new x x1 d : s_tab x1 = s_tab x ++ [d] -> content (s_tab x1) (N.of_nat (length (s_tab x))) = d.
Proof. intros E. unfold content. rewrite E, Nnat.Nat2N.id, app_nth2, Nat.sub_diag by lia. reflexivity. Qed.
(** the line of a sender, after a step *)
Lemma line_step c i a x x1 t1 : SB x -> schange c i a x x1 t1 ->
  (line x1 = line x /\ asked c i t1 = [] /\ sent_by i t1 = []) \/
  (exists d, asked c i t1 = [d] /\ sent_by i t1 = [] /\ line x1 = line x ++ [d]) \/
  (exists d u v, asked c i t1 = [d] /\ sent_by i t1 = [] /\ line x = u ++ v /\ line x1 = u ++ d :: v /\ exists bs n, a = QCall i bs n true) \/
  (exists d, asked c i t1 = [] /\ sent_by i t1 = [d] /\ line x = d :: line x1) \/
  (exists d, asked c i t1 = [] /\ sent_by i t1 = [] /\ line x = d :: line x1 /\ exists k r, a = QSend i (ADone k r) /\ r <> ROk).
Proof.
  intros B [(E1 & E2 & E3 & E4)|[(p & d & G & E1 & E2 & E3 & E4)|[(m & E1 & E2 & E3 & E4)|(m & k & r & E1 & E2 & E3 & E4 & E5 & E6)]]].
  - left. unfold line. rewrite E1, E2. auto.
  - destruct p.
    + destruct E4 as (EA & u & v & P1 & P2). right. right. left. exists d, (map (content (s_tab x)) u), (map (content (s_tab x)) v). split; [exact E1|]. split; [exact E2|].
      split; [unfold line; rewrite P1, map_app; reflexivity|]. split; [|exact EA]. unfold line. rewrite P2, map_app. cbn [map]. rewrite (content_new _ _ _ E3).
      rewrite (line_grow _ _ _ B E3 u), (line_grow _ _ _ B E3 v); [reflexivity| |]; rewrite P1; intros z Z; apply in_or_app; auto.
    + right. left. exists d. split; [exact E1|]. split; [exact E2|]. unfold line. rewrite E4, map_app. cbn [map]. rewrite (content_new _ _ _ E3), (line_grow _ _ _ B E3); [reflexivity|apply incl_refl].
  - right. right. right. left. exists (content (s_tab x) m). split; [exact E3|]. split; [exact E4|]. unfold line. rewrite E2, E1. reflexivity.
  - right. right. right. right. exists (content (s_tab x) m). split; [exact E3|]. split; [exact E4|]. split; [unfold line; rewrite E2, E1; reflexivity|eauto].
Qed.
Lemma left_good c a s s1 t1 : (forall i x, nth_error (q_snd s) i = Some x -> SB x /\ Forall (good (qc c)) (s_tab x)) -> qstep c s a = Some (s1, t1) -> forall x, In x (sent t1) -> good (qc c) (snd x).
Proof.
  intros B H.
  assert (GOT : forall net ev, got c s net ev = Some (s1, t1) -> sent t1 = []).
  { intros net ev G. unfold got in G. destruct (udp_step _ _ _ _) as [[rx o]|]; [|discriminate]. destruct (uo_msgs o) as [|m ms]; [inversion G; reflexivity|]. destruct (M_Handle.step _ _ _) as [[h es]|]; [|discriminate]. inversion G; subst. apply (seen_quiet (qc c)). }
  assert (NIL : sent t1 = [] -> forall x, In x (sent t1) -> good (qc c) (snd x)) by (intros -> x []).
  destruct a as [i bs n p|i|i a|i|k|k|k|e|a]; cbn [qstep] in H.
  - destruct (nth_error (q_snd s) i); [|discriminate]. destruct (pack_array _ _ _) as [[b [|y d]]|]; [| |discriminate]; [inversion H; subst; apply NIL; reflexivity|]. destruct (queue _ _ _ _ _); [|discriminate]. inversion H; subst. apply NIL; reflexivity.
  - destruct (nth_error (q_snd s) i); [|discriminate]. destruct (pack_heartbeat _ _); [|discriminate]. destruct (queue _ _ _ _ _); [|discriminate]. inversion H; subst. apply NIL; reflexivity.
  - destruct (nth_error (q_snd s) i) as [x|]; [|destruct a; discriminate]. destruct a; try discriminate; try (destruct (result_ok (s_left x) r); [|discriminate]); (destruct (ustep false (s_u x) _) as [[u e]|]; [|discriminate]); inversion H; subst; apply NIL; try reflexivity.
    destruct (is_fail r); reflexivity.
  - destruct (nth_error (q_snd s) i) as [x|] eqn:N; [|discriminate]. destruct (B _ _ N) as (BX & GX). destruct (u_fly (s_u x)) as [|m l] eqn:F; [discriminate|]. destruct (s_left x); [discriminate|]. inversion H; subst. intros y [<-|[]]. cbn [snd].
    pose proof (sb_num _ BX) as FN. rewrite F in FN. apply Forall_inv in FN. rewrite Forall_forall in GX. apply GX. apply nth_In. exact FN.
  - destruct (nth_error (q_net s) k); [|discriminate]. inversion H; subst. apply NIL; reflexivity.
  - destruct (nth_error (q_net s) k); [|discriminate]. inversion H; subst. apply NIL; reflexivity.
  - destruct (nth_error (q_net s) k) as [[from d]|]; [|discriminate]. destruct (_ && _) in H; [|discriminate]. apply NIL. exact (GOT _ _ H).
  - destruct (may_recv c s); [|discriminate]. apply NIL. exact (GOT _ _ H).
  - apply NIL. destruct a; try discriminate; (destruct (M_Handle.step _ _ _) as [[h es]|]; [|discriminate]; inversion H; subst; apply (seen_quiet (qc c))).
Qed.
Lemma QI_step c n conn peer s t a s1 t1 : cfg_ok (qc c) = true -> call_ok (qc c) a -> QI c n conn peer s t -> qstep c s a = Some (s1, t1) -> QI c n conn peer s1 (t ++ t1).
Proof.
  intros HC CK J H. destruct (snd_step c s a s1 t1 HC CK (qi_sb _ _ _ _ _ _ J) H) as (L1 & L2 & L3). destruct (qi_h _ _ _ _ _ _ J) as (th & RH).
  destruct (net_step c conn peer s a s1 t1 th HC (qi_good _ _ _ _ _ _ J) (qi_rx _ _ _ _ _ _ J) H) as (N1 & N2 & N3).
  assert (LG : forall x, In x (sent t1) -> good (qc c) (snd x)). { eapply left_good; [|exact H]. intros i x N. split; [exact (qi_sb _ _ _ _ _ _ J _ _ N)|exact (proj2 (qi_tab _ _ _ _ _ _ J _ _ N))]. }
  split.
  - rewrite L1. apply J.
  - intros i x1 N. destruct (L3 _ _ N) as (x & _ & B1 & _). exact B1.
  - intros i x1 N. destruct (L3 _ _ N) as (x & NX & B1 & CH). destruct (qi_tab _ _ _ _ _ _ J _ _ NX) as (T & G). rewrite asked_app.
    destruct CH as [(E1 & E2 & E3 & E4)|[(p & d & GD & E1 & E2 & E3 & E4)|[(m & E1 & E2 & E3 & E4)|(m & k & r & E1 & E2 & E3 & E4 & E5 & E6)]]].
    + rewrite E1, E3, app_nil_r. auto.
    + rewrite E3, E1, T. split; [reflexivity|]. rewrite <- T. apply Forall_app. split; [exact G|constructor; [exact GD|constructor]].
    + rewrite E1, E3, app_nil_r. auto.
    + rewrite E1, E3, app_nil_r. auto.
  - intros i x1 N. destruct (L3 _ _ N) as (x & NX & B1 & CH). destruct (qi_perm _ _ _ _ _ _ J _ _ NX) as (lost & P). rewrite asked_app, sent_by_app.
    destruct (line_step _ _ _ _ _ _ (qi_sb _ _ _ _ _ _ J _ _ NX) CH) as [(E1 & E2 & E3)|[(d & E1 & E2 & E3)|[(d & u & v & E1 & E2 & E3 & E4 & _)|[(d & E1 & E2 & E3)|(d & E1 & E2 & E3 & _)]]]].
    + exists lost. rewrite E1, E2, E3, !app_nil_r. exact P.
    + exists lost. rewrite E1, E2, E3, app_nil_r, !app_assoc. apply Permutation_app_tail. rewrite <- !app_assoc. exact P.
    + exists lost. rewrite E1, E2, E4, app_nil_r. rewrite E3 in P. rewrite <- P. rewrite !app_assoc. rewrite <- Permutation_middle. rewrite <- Permutation_cons_append. apply perm_skip. reflexivity.
    + exists lost. rewrite E1, E2, app_nil_r. rewrite E3 in P. rewrite <- P. rewrite <- !app_assoc. apply Permutation_app_head. cbn [app]. rewrite Permutation_middle. reflexivity.
    + exists (d :: lost). rewrite E1, E2, !app_nil_r. rewrite E3 in P. rewrite <- P. apply Permutation_app_head. cbn [app]. rewrite Permutation_middle. reflexivity.
  - intros i L. rewrite sent_by_app, (qi_none _ _ _ _ _ _ J _ L), L2; [reflexivity|]. rewrite (qi_len _ _ _ _ _ _ J). exact L.
  - pose proof (qi_net _ _ _ _ _ _ J) as Q. intros x X. rewrite sent_app. apply in_or_app.
    destruct N2 as [(E1 & E2 & E3)|[(y & E1 & E2 & E3)|[(k & y & _ & EN & E1 & E2 & E3)|[(k & y & _ & EN & E1 & E2 & E3)|(k & y & _ & EN & E1 & E2 & E3 & EP)]]]]; rewrite E1, E2 in X.
    + left. exact (Q _ X).
    + rewrite E3. rewrite <- app_assoc in X. apply in_app_or in X as [X|[<-|X]]; [left; apply Q; apply in_or_app; auto|right; left; reflexivity|left; apply Q; apply in_or_app; auto].
    + left. apply Q. apply in_app_or in X as [X|X]; apply in_or_app; [left; exact (remove_at_in _ _ _ _ EN X)|right; exact X].
    + left. apply Q. rewrite <- app_assoc in X. apply in_app_or in X as [X|[<-|X]]; apply in_or_app; [left; exact X|left; exact (nth_error_In _ _ EN)|right; exact X].
    + left. apply Q. rewrite app_assoc in X. apply in_app_or in X as [X|[<-|[]]]; [apply in_app_or in X as [X|X]; apply in_or_app; [left; exact (remove_at_in _ _ _ _ EN X)|right; exact X]|apply in_or_app; left; exact (nth_error_In _ _ EN)].
  - pose proof (qi_good _ _ _ _ _ _ J) as Q.
    destruct N2 as [(E1 & E2 & E3)|[(y & E1 & E2 & E3)|[(k & y & _ & EN & E1 & E2 & E3)|[(k & y & _ & EN & E1 & E2 & E3)|(k & y & _ & EN & E1 & E2 & E3 & EP)]]]]; rewrite E1.
    + exact Q.
    + apply Forall_app. split; [exact Q|]. constructor; [|constructor]. apply LG. rewrite E3. left. reflexivity.
    + rewrite Forall_forall in Q |- *. intros z Z. apply Q. exact (remove_at_in _ _ _ _ EN Z).
    + apply Forall_app. split; [exact Q|]. constructor; [|constructor]. rewrite Forall_forall in Q. exact (Q _ (nth_error_In _ _ EN)).
    + rewrite Forall_forall in Q |- *. intros z Z. apply Q. exact (remove_at_in _ _ _ _ EN Z).
  - exact N3.
  - intros C. pose proof (qi_peer _ _ _ _ _ _ J C) as Q. destruct (qi_rx _ _ _ _ _ _ J) as (_ & R2 & R3).
    destruct N2 as [(E1 & E2 & E3)|[(y & E1 & E2 & E3)|[(k & y & _ & EN & E1 & E2 & E3)|[(k & y & _ & EN & E1 & E2 & E3)|(k & y & _ & EN & E1 & E2 & E3 & EP)]]]]; rewrite E2; try exact Q.
    apply Forall_app. split; [exact Q|]. constructor; [|constructor]. rewrite <- R3. apply EP. congruence.
  - destruct (N1 _ RH) as (th1 & R1). exists th1. rewrite handled_app. exact R1.
Qed.
Lemma QI_0 c n mem conn peer : lenN mem = bufsz (qc c) -> QI c n conn peer (q0 n mem conn peer) [].
Proof.
  intros L. split; cbn [q0 q_snd q_net q_tab q_rx q_h handled].
  - apply repeat_length.
  - intros i x N. apply nth_error_repeat_some in N as ->. split; [exact uinv0|discriminate|constructor].
  - intros i x N. apply nth_error_repeat_some in N as ->. split; [reflexivity|constructor].
  - intros i x N. apply nth_error_repeat_some in N as ->. exists []. reflexivity.
  - reflexivity.
  - intros x [].
  - constructor.
  - repeat split. exact L.
  - constructor.
  - exists []. apply RI_0.
Qed.
(** more that holds step by step, under conditions on the steps *)
Lemma qrun_ind c n conn peer (ok : qact -> Prop) (P : qst -> list qev -> Prop) : cfg_ok (qc c) = true ->
  (forall s t a s1 t1, QI c n conn peer s t -> P s t -> call_ok (qc c) a -> ok a -> qstep c s a = Some (s1, t1) -> P s1 (t ++ t1)) ->
  forall l s t s' t', QI c n conn peer s t -> P s t -> Forall (call_ok (qc c)) l -> Forall ok l -> qrun c s l = Some (s', t') -> QI c n conn peer s' (t ++ t') /\ P s' (t ++ t').
Proof.
  intros HC ST. induction l as [|a l IH]; intros s t s' t' J PS F1 F2 H; cbn [qrun] in H; [inversion H; subst; rewrite app_nil_r; auto|].
  destruct (qstep c s a) as [[s1 t1]|] eqn:E; [|discriminate]. destruct (qrun c s1 l) as [[s2 t2]|] eqn:E2; [|discriminate]. inversion H; subst. rewrite app_assoc.
  inversion F1; subst. inversion F2; subst. eapply IH; try eassumption; [eapply QI_step; eassumption|eapply ST; eassumption].
Qed.
Lemma QI_run c n mem conn peer l s t : cfg_ok (qc c) = true -> lenN mem = bufsz (qc c) -> Forall (call_ok (qc c)) l -> qrun c (q0 n mem conn peer) l = Some (s, t) -> QI c n conn peer s t.
Proof.
  intros HC L F H. destruct (qrun_ind c n conn peer (fun _ => True) (fun _ _ => True) HC (fun _ _ _ _ _ _ _ _ _ _ => I) l _ [] s t (QI_0 c n mem conn peer L) I F) as (J & _); [apply Forall_forall; intros; exact I|exact H|exact J].
Qed.
Lemma firstn_In {A} k (l : list A) x : In x (firstn k l) -> In x l.
Proof. intros H. rewrite <- (firstn_skipn k l). apply in_or_app. left. exact H. Qed.

(** ** C150 *)
(** Whatever the network does, everything the receiving application handles was sent, whole: the datagram of a call (or a heartbeat) of
    the sender whose address it is labelled with; a connected receiver handles messages of its peer only. *)
Theorem C150_genuine : forall c n mem conn peer l s t, cfg_ok (qc c) = true -> lenN mem = bufsz (qc c) -> Forall (call_ok (qc c)) l -> qrun c (q0 n mem conn peer) l = Some (s, t) ->
  forall a d, In (a, d) (handled t) -> exists i, i < n /\ a = N.of_nat i /\ In d (sent_by i t) /\ In d (asked (qc c) i t) /\ (conn = true -> a = peer).
Proof.
  intros c n mem conn peer l s t HC L F H a d HD. pose proof (QI_run _ _ _ _ _ _ _ _ HC L F H) as J.
  destruct (qi_h _ _ _ _ _ _ J) as (th & R). rewrite (ri_now _ _ _ _ _ R) in HD. apply firstn_In in HD.
  assert (S : In (a, d) (sent t)) by (apply (qi_net _ _ _ _ _ _ J); apply in_or_app; right; exact HD).
  assert (S' : exists i, a = N.of_nat i /\ In d (sent_by i t)).
  { clear -S. induction t as [|e t IH]; [destruct S|]. destruct e; cbn [sent sent_by] in *; try exact (IH S). destruct S as [E|S].
    - inversion E; subst. exists i. split; [reflexivity|]. rewrite Nat.eqb_refl. left. reflexivity.
    - destruct (IH S) as (j & E & D). exists j. split; [exact E|]. apply in_or_app. right. exact D. }
  destruct S' as (i & EA & D). exists i. assert (LI : i < n) by (destruct (Nat.lt_ge_cases i n) as [X|X]; [exact X|rewrite (qi_none _ _ _ _ _ _ J _ X) in D; destruct D]).
  split; [exact LI|]. split; [exact EA|]. split; [exact D|]. split.
  - destruct (nth_error (q_snd s) i) as [x|] eqn:N; [|apply nth_error_None in N; rewrite (qi_len _ _ _ _ _ _ J) in N; lia]. destruct (qi_perm _ _ _ _ _ _ J _ _ N) as (lost & P). eapply Permutation_in; [exact P|]. apply in_or_app. left. exact D.
  - intros C. pose proof (qi_peer _ _ _ _ _ _ J C) as Q. rewrite Forall_forall in Q. exact (Q _ HD).
Qed.

Definition ex_qc : qcfg := mk_qc (mk_cfg 9 false true (2^64 - 1)) false false false 100.
Definition ex_mem : list byte := repeat Byte.x00 9.
Definition word (l : list byte) : list buf := [mk_buf (Some l) (lenN l)].
(** a send that goes through *)
Definition go (i : nat) : list qact := [QSend i AReady; QSend i ALoad; QSend i ARun; QSend i AStrand; QSend i AStrand].
Definition done (i : nat) : list qact := [QSend i (ADone 0 ROk); QSend i AStrand; QSend i AStrand; QSend i AStrand; QSend i AStrand].
Definition hands : list qact := map QHand [M_Handle.HMove; M_Handle.HTest; M_Handle.HPost; M_Handle.HRun; M_Handle.HMark; M_Handle.HRet true; M_Handle.HClear; M_Handle.HRepost].
(** sender 1 sends a native message, sender 0 a message and a heartbeat; the network reorders, duplicates and loses *)
Definition ex_run : list qact :=
  [QSend 0 AStart; QSend 1 AStart; QCall 1 (word [Byte.x61; Byte.x62]) true false] ++ go 1 ++ [QLeave 1; QCall 0 (word [Byte.x63]) false false] ++ go 0 ++ [QLeave 0; QBeat 0] ++ done 1 ++
  [QSend 0 (ADone 0 ROk); QSend 0 AStrand; QSend 0 AStrand; QLeave 0; QTake 1] ++ hands ++ [QDup 0; QTake 0] ++ hands ++ [QTake 1; QLose 0] ++ hands.
Example C150_genuine_example : exists s t, qrun ex_qc (q0 2 ex_mem false 0%N) ex_run = Some (s, t) /\ cfg_ok (qc ex_qc) = true /\ lenN ex_mem = bufsz (qc ex_qc) /\ Forall (call_ok (qc ex_qc)) ex_run /\
  handled t = [(0%N, [Byte.x00; Byte.x03; Byte.x63]); (1%N, [Byte.x61; Byte.x62]); (1%N, [Byte.x61; Byte.x62])] /\ sent_by 0 t = [[Byte.x00; Byte.x03; Byte.x63]; [Byte.x00; Byte.x02]] /\ asked (qc ex_qc) 1 t = [[Byte.x61; Byte.x62]].
Proof. do 2 eexists. split; [vm_compute; reflexivity|]. split; [reflexivity|]. split; [reflexivity|]. split; [repeat constructor; vm_compute; discriminate|]. repeat split. Qed.
Print Assumptions C150_genuine.

(** A network that does not duplicate: nothing is handled more often than it was sent, nothing is sent more often than asked for. *)
Theorem C150_once : forall c n mem conn peer l s t, cfg_ok (qc c) = true -> lenN mem = bufsz (qc c) -> Forall (call_ok (qc c)) l -> qrun c (q0 n mem conn peer) l = Some (s, t) -> Forall no_dup l ->
  forall i d, count (N.of_nat i, d) (handled t) <= count_occ (list_eq_dec Byte.byte_eq_dec) (sent_by i t) d /\
              count_occ (list_eq_dec Byte.byte_eq_dec) (sent_by i t) d <= count_occ (list_eq_dec Byte.byte_eq_dec) (asked (qc c) i t) d.
Proof.
  intros c n mem conn peer l s t HC L F H ND i d.
  destruct (qrun_ind c n conn peer no_dup (fun s t => forall x, count x (q_net s ++ q_tab s) <= count x (sent t)) HC) with (l := l) (s := q0 n mem conn peer) (t := @nil qev) (s' := s) (t' := t) as (J & P); try assumption.
  - clear -HC. intros s t a s1 t1 J P CK ND H x. specialize (P x). destruct (qi_h _ _ _ _ _ _ J) as (th & R).
    destruct (net_step c conn peer s a s1 t1 th) as (_ & N2 & _); try assumption; try apply J.
    unfold count in *. rewrite sent_app, !count_occ_app in *.
    destruct N2 as [(E1 & E2 & E3)|[(y & E1 & E2 & E3)|[(k & y & _ & EN & E1 & E2 & E3)|[(k & y & -> & EN & E1 & E2 & E3)|(k & y & _ & EN & E1 & E2 & E3 & EP)]]]]; rewrite E1, E2, E3, ?count_occ_app.
    + cbn [count_occ]. lia.
    + lia.
    + pose proof (proj1 (Permutation_count_occ dgram_dec _ _) (remove_at_perm k _ _ EN) x) as PC. cbn [count_occ] in PC |- *. destruct (dgram_dec y x); lia.
    + destruct ND.
    + pose proof (proj1 (Permutation_count_occ dgram_dec _ _) (remove_at_perm k _ _ EN) x) as PC. cbn [count_occ] in PC |- *. destruct (dgram_dec y x); lia.
  - apply QI_0. exact L.
  - intros x. cbn. lia.
  - cbn [app] in *. split.
    + rewrite <- count_sent. specialize (P (N.of_nat i, d)). destruct (qi_h _ _ _ _ _ _ J) as (th & R). rewrite (ri_now _ _ _ _ _ R). etransitivity; [|exact P]. unfold count. rewrite count_occ_app.
      rewrite <- (firstn_skipn (length (S_Handle.handled th)) (q_tab s)) at 2. rewrite count_occ_app. lia.
    + destruct (nth_error (q_snd s) i) as [x|] eqn:N.
      * destruct (qi_perm _ _ _ _ _ _ J _ _ N) as (lost & Q). rewrite <- (proj1 (Permutation_count_occ _ _ _) Q d), !count_occ_app. lia.
      * apply nth_error_None in N. rewrite (qi_len _ _ _ _ _ _ J) in N. rewrite (qi_none _ _ _ _ _ _ J _ N). cbn. lia.
Qed.
Definition ex_once : list qact :=
  [QSend 0 AStart; QSend 1 AStart; QCall 1 (word [Byte.x61; Byte.x62]) true false] ++ go 1 ++ [QLeave 1; QCall 0 (word [Byte.x63]) false false] ++ go 0 ++ [QLeave 0] ++ [QTake 1] ++ hands ++ [QTake 0] ++ hands.
Example C150_once_example : exists s t, qrun ex_qc (q0 2 ex_mem false 0%N) ex_once = Some (s, t) /\ Forall (call_ok (qc ex_qc)) ex_once /\ Forall no_dup ex_once /\ count (1%N, [Byte.x61; Byte.x62]) (handled t) = 1.
Proof. do 2 eexists. split; [vm_compute; reflexivity|]. split; [repeat constructor; vm_compute; discriminate|]. split; [repeat constructor|]. reflexivity. Qed.
Print Assumptions C150_once.

Lemma orderly_net : forall c n mem conn peer l s t, cfg_ok (qc c) = true -> lenN mem = bufsz (qc c) -> Forall (call_ok (qc c)) l -> qrun c (q0 n mem conn peer) l = Some (s, t) -> Forall orderly l ->
  q_tab s ++ q_net s = sent t.
Proof.
  intros c n mem conn peer l s t HC L F H ND.
  destruct (qrun_ind c n conn peer orderly (fun s t => q_tab s ++ q_net s = sent t) HC) with (l := l) (s := q0 n mem conn peer) (t := @nil qev) (s' := s) (t' := t) as (J & P); try assumption.
  - clear -HC. intros s t a s1 t1 J P CK ND H. destruct (qi_h _ _ _ _ _ _ J) as (th & R).
    destruct (net_step c conn peer s a s1 t1 th) as (_ & N2 & _); try assumption; try apply J. rewrite sent_app, <- P.
    destruct N2 as [(E1 & E2 & E3)|[(y & E1 & E2 & E3)|[(k & y & -> & EN & E1 & E2 & E3)|[(k & y & -> & EN & E1 & E2 & E3)|(k & y & -> & EN & E1 & E2 & E3 & EP)]]]]; rewrite E1, E2, E3, ?app_nil_r.
    + reflexivity.
    + apply app_assoc.
    + destruct ND.
    + destruct ND.
    + destruct k; [|destruct ND]. destruct (q_net s) as [|z net]; [discriminate|]. inversion EN; subst. unfold remove_at. cbn [firstn skipn app]. rewrite <- app_assoc. reflexivity.
  - apply QI_0. exact L.
  - reflexivity.
Qed.
(** An orderly network: what is handled is the beginning of what left the hosts, in that order: each datagram once, none missing in between. *)
Theorem C150_orderly : forall c n mem conn peer l s t, cfg_ok (qc c) = true -> lenN mem = bufsz (qc c) -> Forall (call_ok (qc c)) l -> qrun c (q0 n mem conn peer) l = Some (s, t) -> Forall orderly l ->
  exists rest, sent t = handled t ++ rest.
Proof.
  intros c n mem conn peer l s t HC L F H ND. pose proof (orderly_net _ _ _ _ _ _ _ _ HC L F H ND) as P. pose proof (QI_run _ _ _ _ _ _ _ _ HC L F H) as J.
  destruct (qi_h _ _ _ _ _ _ J) as (th & R). rewrite (ri_now _ _ _ _ _ R), <- P. exists (skipn (length (S_Handle.handled th)) (q_tab s) ++ q_net s). rewrite app_assoc, firstn_skipn. reflexivity.
Qed.
Definition ex_orderly : list qact :=
  [QSend 0 AStart; QSend 1 AStart; QCall 1 (word [Byte.x61; Byte.x62]) true false] ++ go 1 ++ [QLeave 1; QCall 0 (word [Byte.x63]) false false] ++ go 0 ++ [QLeave 0] ++ [QTake 0] ++ hands.
Example C150_orderly_example : exists s t, qrun ex_qc (q0 2 ex_mem false 0%N) ex_orderly = Some (s, t) /\ Forall (call_ok (qc ex_qc)) ex_orderly /\ Forall orderly ex_orderly /\
  handled t = [(1%N, [Byte.x61; Byte.x62])] /\ sent t = [(1%N, [Byte.x61; Byte.x62]); (0%N, [Byte.x00; Byte.x03; Byte.x63])].
Proof. do 2 eexists. split; [vm_compute; reflexivity|]. split; [repeat constructor; vm_compute; discriminate|]. split; [repeat constructor|]. split; reflexivity. Qed.
Print Assumptions C150_orderly.

(** The datagrams of a sender leave in the order of the calls, unless it is asked to put messages before others; failed sends are missing;
    if none fails, none is missing. *)
Theorem C150_in_order : forall c n mem conn peer l s t i, cfg_ok (qc c) = true -> lenN mem = bufsz (qc c) -> Forall (call_ok (qc c)) l -> qrun c (q0 n mem conn peer) l = Some (s, t) -> i < n -> Forall (no_prior i) l ->
  sublist (sent_by i t) (asked (qc c) i t) /\ (Forall (no_fail i) l -> exists rest, asked (qc c) i t = sent_by i t ++ rest).
Proof.
  intros c n mem conn peer l s t i HC L F H LI NP. split.
  - destruct (qrun_ind c n conn peer (no_prior i) (fun s t => forall x, nth_error (q_snd s) i = Some x -> sublist (sent_by i t ++ line x) (asked (qc c) i t)) HC) with (l := l) (s := q0 n mem conn peer) (t := @nil qev) (s' := s) (t' := t) as (J & P); try assumption.
    + clear -HC. intros s t a s1 t1 J P CK NP H x1 N. destruct (snd_step c s a s1 t1 HC CK (qi_sb _ _ _ _ _ _ J) H) as (_ & _ & L3). destruct (L3 _ _ N) as (x & NX & B1 & CH). specialize (P _ NX). rewrite asked_app, sent_by_app.
      destruct (line_step _ _ _ _ _ _ (qi_sb _ _ _ _ _ _ J _ _ NX) CH) as [(E1 & E2 & E3)|[(d & E1 & E2 & E3)|[(d & u & v & E1 & E2 & E3 & E4 & (bs & m & ->))|[(d & E1 & E2 & E3)|(d & E1 & E2 & E3 & _)]]]].
      * rewrite E1, E2, E3, !app_nil_r. exact P.
      * rewrite E1, E2, E3, app_nil_r, app_assoc. apply sublist_snoc. exact P.
      * exfalso. exact (NP eq_refl).
      * rewrite E1, E2, app_nil_r, <- app_assoc. cbn [app]. rewrite <- E3. exact P.
      * rewrite E1, E2, !app_nil_r. rewrite E3 in P. exact (sublist_drop _ _ _ _ P).
    + apply QI_0. exact L.
    + intros x N. apply nth_error_repeat_some in N as ->. exact (sublist_nil _).
    + cbn [app] in *. destruct (nth_error (q_snd s) i) as [x|] eqn:N; [|apply nth_error_None in N; rewrite (qi_len _ _ _ _ _ _ J) in N; lia]. specialize (P _ eq_refl).
      clear -P. revert P. generalize (line x), (asked (qc c) i t). generalize (sent_by i t). intros a b m P. revert a P. induction m as [|z m IH]; intros a P; destruct a as [|y a]; try exact (sublist_nil _); cbn [app] in P; [destruct P|]. destruct P as [(-> & P)|P]; [left; split; [reflexivity|exact (IH _ P)]|right; exact (IH (y :: a) P)].
  - intros NF. destruct (qrun_ind c n conn peer (fun a => no_prior i a /\ no_fail i a) (fun s t => forall x, nth_error (q_snd s) i = Some x -> sent_by i t ++ line x = asked (qc c) i t) HC) with (l := l) (s := q0 n mem conn peer) (t := @nil qev) (s' := s) (t' := t) as (J & P); try assumption.
    + clear -HC. intros s t a s1 t1 J P CK [NP NF] H x1 N. destruct (snd_step c s a s1 t1 HC CK (qi_sb _ _ _ _ _ _ J) H) as (_ & _ & L3). destruct (L3 _ _ N) as (x & NX & B1 & CH). specialize (P _ NX). rewrite asked_app, sent_by_app.
      destruct (line_step _ _ _ _ _ _ (qi_sb _ _ _ _ _ _ J _ _ NX) CH) as [(E1 & E2 & E3)|[(d & E1 & E2 & E3)|[(d & u & v & E1 & E2 & E3 & E4 & (bs & m & ->))|[(d & E1 & E2 & E3)|(d & E1 & E2 & E3 & k & r & -> & NR)]]]].
      * rewrite E1, E2, E3, !app_nil_r. exact P.
      * rewrite E1, E2, E3, app_nil_r, app_assoc, P. reflexivity.
      * exfalso. exact (NP eq_refl).
      * rewrite E1, E2, app_nil_r, <- app_assoc. cbn [app]. rewrite <- E3. exact P.
      * exfalso. exact (NR (NF eq_refl)).
    + apply QI_0. exact L.
    + intros x N. apply nth_error_repeat_some in N as ->. reflexivity.
    + clear -NP NF. induction l; constructor; inversion NP; inversion NF; auto.
    + cbn [app] in *. destruct (nth_error (q_snd s) i) as [x|] eqn:N; [|apply nth_error_None in N; rewrite (qi_len _ _ _ _ _ _ J) in N; lia]. specialize (P _ eq_refl). exists (line x). symmetry. exact P.
Qed.
Definition ex_order : list qact :=
  [QSend 0 AStart; QCall 0 (word [Byte.x61]) true false; QCall 0 (word [Byte.x62]) true false; QCall 0 (word [Byte.x63]) true false; QCall 0 (word [Byte.x64]) true false] ++ go 0 ++
  [QLeave 0; QSend 0 (ADone 0 ROk); QSend 0 AStrand; QSend 0 AStrand; QSend 0 (ADone 0 RErr); QSend 0 AStrand; QSend 0 AStrand; QLeave 0].
Definition ex_order2 : list qact :=
  [QSend 0 AStart; QCall 0 (word [Byte.x61]) true false; QCall 0 (word [Byte.x62]) true false; QCall 0 (word [Byte.x63]) true false] ++ go 0 ++ [QLeave 0; QSend 0 (ADone 0 ROk); QSend 0 AStrand; QSend 0 AStrand; QLeave 0].
Example C150_in_order_example : exists s t s2 t2, qrun ex_qc (q0 1 ex_mem false 0%N) ex_order = Some (s, t) /\ qrun ex_qc (q0 1 ex_mem false 0%N) ex_order2 = Some (s2, t2) /\ Forall (call_ok (qc ex_qc)) ex_order /\ Forall (no_prior 0) ex_order /\
  sent_by 0 t = [[Byte.x61]; [Byte.x63]] /\ asked (qc ex_qc) 0 t = [[Byte.x61]; [Byte.x62]; [Byte.x63]; [Byte.x64]] /\
  Forall (call_ok (qc ex_qc)) ex_order2 /\ Forall (no_prior 0) ex_order2 /\ Forall (no_fail 0) ex_order2 /\ sent_by 0 t2 = [[Byte.x61]; [Byte.x62]].
Proof. do 4 eexists. split; [vm_compute; reflexivity|]. split; [vm_compute; reflexivity|]. split; [repeat constructor; vm_compute; discriminate|]. split; [repeat constructor|]. split; [reflexivity|]. split; [reflexivity|]. split; [repeat constructor; vm_compute; discriminate|]. split; [repeat constructor|]. split; [repeat constructor|]. reflexivity. Qed.
Print Assumptions C150_in_order.

(** ** C151 *)
(** What the receiving application handles is what was given to a send function of the sender. *)
Definition C151_statement : Prop := forall c n mem conn peer l s t, cfg_ok (qc c) = true -> lenN mem = bufsz (qc c) -> Forall (call_ok (qc c)) l -> qrun c (q0 n mem conn peer) l = Some (s, t) ->
  forall i d, In (N.of_nat i, d) (handled t) -> In d (contents i t).
(** send_msg (not native) prepends a header, which nothing removes again: the application is given the header together with the content;
    the heartbeat, a header only, is handled as a message although nothing was given to a send function. *)
Definition ex_header : list qact := [QSend 0 AStart; QCall 0 (word [Byte.x61]) false false] ++ go 0 ++ [QLeave 0; QTake 0] ++ hands ++ [QBeat 0] ++ [QSend 0 (ADone 0 ROk); QSend 0 AStrand; QSend 0 AStrand; QLeave 0; QTake 0] ++ hands.
Theorem C151_refuted : exists c mem l s t, qrun c (q0 1 mem false 0%N) l = Some (s, t) /\ cfg_ok (qc c) = true /\ lenN mem = bufsz (qc c) /\ Forall (call_ok (qc c)) l /\
  contents 0 t = [[Byte.x61]] /\ handled t = [(0%N, [Byte.x00; Byte.x03; Byte.x61]); (0%N, [Byte.x00; Byte.x02])].
Proof. exists ex_qc, ex_mem, ex_header. do 2 eexists. split; [vm_compute; reflexivity|]. split; [reflexivity|]. split; [reflexivity|]. split; [repeat constructor; vm_compute; discriminate|]. split; reflexivity. Qed.
Print Assumptions C151_refuted.
Theorem C151_statement_refuted : ~ C151_statement.
Proof.
  intros S. destruct C151_refuted as (c & mem & l & s & t & H & HC & L & F & E1 & E2). specialize (S c 1 mem false 0%N l s t HC L F H 0 [Byte.x00; Byte.x02]). rewrite E1, E2 in S. destruct S as [S|[]]; [right; left; reflexivity|discriminate].
Qed.
Print Assumptions C151_statement_refuted.
(** For a sender that calls the native functions only and sends no heartbeats: what is handled is exactly what was given, and with an orderly
    network, sends that do not fail and no message put before others, the messages of a lone sender are handled in the order they were given,
    each once (those that are empty or too long are not sent). *)
Definition sendable (c : cfg) (m : list byte) : bool := nonempty m && (lenN m <=? bufsz c)%N.
Lemma native_run c n mem conn peer l s t i : cfg_ok (qc c) = true -> lenN mem = bufsz (qc c) -> Forall (call_ok (qc c)) l -> qrun c (q0 n mem conn peer) l = Some (s, t) -> Forall (native_only i) l ->
  asked (qc c) i t = filter (sendable (qc c)) (contents i t).
Proof.
  intros HC L F H NO. destruct (qrun_ind c n conn peer (native_only i) (fun s t => asked (qc c) i t = filter (sendable (qc c)) (contents i t)) HC) with (l := l) (s := q0 n mem conn peer) (t := @nil qev) (s' := s) (t' := t) as (_ & P); try assumption; [|apply QI_0; exact L|reflexivity].
  clear. intros s t a s1 t1 _ P CK NO H. rewrite asked_app, contents_app, filter_app, P. f_equal. clear P.
  assert (GOT : forall net ev, got c s net ev = Some (s1, t1) -> asked (qc c) i t1 = filter (sendable (qc c)) (contents i t1)).
  { intros net ev G. unfold got in G. destruct (udp_step _ _ _ _) as [[rx o]|]; [|discriminate]. destruct (uo_msgs o) as [|m ms]; [inversion G; reflexivity|]. destruct (M_Handle.step _ _ _) as [[h es]|]; [|discriminate]. inversion G; subst. destruct (seen_quiet (qc c) (q_tab s ++ m :: ms) es) as (Q1 & _ & _ & Q4). rewrite Q1, Q4. reflexivity. }
  assert (ASK : forall j bs p m, (m = false -> i <> j) -> asked (qc c) i [QAsk j p m bs] = filter (sendable (qc c)) (contents i [QAsk j p m bs])).
  { intros j bs p m N. cbn [asked contents]. rewrite !app_nil_r. destruct (Nat.eqb_spec i j) as [->|]; [|reflexivity]. destruct m; [|destruct (N eq_refl eq_refl)]. cbn [filter]. unfold sendable, as_datagram. destruct (given bs) as [|y g]; [reflexivity|]. cbn [nonempty andb]. destruct (_ <=? _)%N; reflexivity. }
  destruct a as [j bs m p|j|j a|j|k|k|k|e|a]; cbn [qstep] in H.
  - assert (NJ : m = false -> i <> j) by (intros ->; exact NO). destruct (nth_error (q_snd s) j); [|discriminate]. destruct (pack_array _ _ _) as [[b [|y d]]|]; [| |discriminate]; [inversion H; subst; apply ASK; exact NJ|]. destruct (queue _ _ _ _ _); [|discriminate]. inversion H; subst. apply ASK. exact NJ.
  - destruct (nth_error (q_snd s) j); [|discriminate]. destruct (pack_heartbeat _ _); [|discriminate]. destruct (queue _ _ _ _ _); [|discriminate]. inversion H; subst. cbn. cbn in NO. destruct (Nat.eqb_spec i j); [congruence|reflexivity].
  - destruct (nth_error (q_snd s) j) as [x|]; [|destruct a; discriminate]. destruct a; try discriminate; try (destruct (result_ok (s_left x) r); [|discriminate]); (destruct (ustep false (s_u x) _) as [[u e]|]; [|discriminate]); inversion H; subst; try reflexivity.
    destruct (is_fail r); reflexivity.
  - destruct (nth_error (q_snd s) j) as [x|] eqn:N; [|discriminate]. destruct (u_fly (s_u x)); [discriminate|]. destruct (s_left x); [discriminate|]. inversion H; subst. reflexivity.
  - destruct (nth_error (q_net s) k); [|discriminate]. inversion H; subst. reflexivity.
  - destruct (nth_error (q_net s) k); [|discriminate]. inversion H; subst. reflexivity.
  - destruct (nth_error (q_net s) k) as [[from d]|]; [|discriminate]. destruct (_ && _) in H; [|discriminate]. exact (GOT _ _ H).
  - destruct (may_recv c s); [|discriminate]. exact (GOT _ _ H).
  - destruct a; try discriminate; (destruct (M_Handle.step _ _ _) as [[h es]|]; [|discriminate]; inversion H; subst; destruct (seen_quiet (qc c) (q_tab s) es) as (Q1 & _ & _ & Q4); rewrite Q1, Q4; reflexivity).
Qed.
Theorem C151_native_partial : forall c n mem conn peer l s t i, cfg_ok (qc c) = true -> lenN mem = bufsz (qc c) -> Forall (call_ok (qc c)) l -> qrun c (q0 n mem conn peer) l = Some (s, t) -> Forall (native_only i) l ->
  (forall d, In (N.of_nat i, d) (handled t) -> In d (contents i t)) /\
  (n = 1 -> i = 0 -> Forall orderly l -> Forall (no_prior i) l -> Forall (no_fail i) l -> exists rest, filter (sendable (qc c)) (contents i t) = map snd (handled t) ++ rest).
Proof.
  intros c n mem conn peer l s t i HC L F H NO. pose proof (native_run _ _ _ _ _ _ _ _ _ HC L F H NO) as A. split.
  - intros d D. destruct (C150_genuine _ _ _ _ _ _ _ _ HC L F H _ _ D) as (j & _ & E & _ & X & _). apply Nnat.Nat2N.inj in E. subst j. rewrite A in X. apply filter_In in X. apply X.
  - intros -> -> O NP NF. destruct (C150_orderly _ _ _ _ _ _ _ _ HC L F H O) as (r1 & E1). destruct (C150_in_order _ _ _ _ _ _ _ _ 0 HC L F H ltac:(lia) NP) as (_ & X). destruct (X NF) as (r2 & E2).
    assert (S : map snd (sent t) = sent_by 0 t).
    { pose proof (QI_run _ _ _ _ _ _ _ _ HC L F H) as J. pose proof (qi_none _ _ _ _ _ _ J) as Z. clear -Z. induction t as [|e t IH]; [reflexivity|]. destruct e; cbn [sent sent_by] in *; try exact (IH Z).
      destruct i as [|i].
      - cbn [Nat.eqb map app snd]. f_equal. apply IH. intros j LJ. specialize (Z j LJ). destruct j; [lia|]. exact Z.
      - exfalso. specialize (Z (S i) ltac:(lia)). rewrite Nat.eqb_refl in Z. discriminate. }
    exists (map snd r1 ++ r2). rewrite <- A, E2, <- S, E1, map_app, app_assoc. reflexivity.
Qed.
Definition ex_native : list qact := [QSend 0 AStart; QCall 0 (word [Byte.x61; Byte.x61]) true false; QCall 0 (word []) true false; QCall 0 (word [Byte.x62]) true false; QCall 0 (word [Byte.x63]) true false] ++ go 0 ++
  [QLeave 0; QTake 0] ++ hands ++ [QSend 0 (ADone 0 ROk); QSend 0 AStrand; QSend 0 AStrand; QLeave 0; QTake 0] ++ hands.
Example C151_native_example : exists s t, qrun ex_qc (q0 1 ex_mem false 0%N) ex_native = Some (s, t) /\ Forall (call_ok (qc ex_qc)) ex_native /\ Forall (native_only 0) ex_native /\ Forall orderly ex_native /\ Forall (no_prior 0) ex_native /\ Forall (no_fail 0) ex_native /\
  handled t = [(0%N, [Byte.x61; Byte.x61]); (0%N, [Byte.x62])] /\ contents 0 t = [[Byte.x61; Byte.x61]; []; [Byte.x62]; [Byte.x63]].
Proof. do 2 eexists. split; [vm_compute; reflexivity|]. split; [repeat constructor; vm_compute; discriminate|]. split; [repeat constructor; discriminate|]. split; [repeat constructor|]. split; [repeat constructor|]. split; [repeat constructor|]. split; reflexivity. Qed.
Print Assumptions C151_native_partial.
