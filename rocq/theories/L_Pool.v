(** Lemmas about object pools. *)
From Coq Require Import List NArith Bool Arith Lia ZifyBool ZifyNat ZifyN Permutation.
From Verif Require Import M_Pool S_Pool.
Import ListNotations.
Open Scope N_scope.

Lemma obj_out s p : (length (objs s) <= p)%nat -> obj s p = no_obj.
Proof. intros H. unfold obj. apply nth_overflow. exact H. Qed.
Lemma ext_in s p : (0 <? o_ext (obj s p))%nat = true -> (p < length (objs s))%nat.
Proof. intros H. destruct (Nat.lt_ge_cases p (length (objs s))) as [L|L]; [exact L|]. rewrite (obj_out s p L) in H. discriminate. Qed.
Lemma upd_len s p f : length (objs (upd_obj s p f)) = length (objs s).
Proof.
  unfold upd_obj. cbn [objs]. rewrite !app_length, firstn_length, skipn_length.
  destruct (nth_error (objs s) p) eqn:E.
  - assert (p < length (objs s))%nat by (apply nth_error_Some; congruence). cbn [length]. lia.
  - apply nth_error_None in E. cbn [length]. lia.
Qed.
Lemma obj_upd s p f q : (p < length (objs s))%nat -> obj (upd_obj s p f) q = if (q =? p)%nat then f (obj s p) else obj s q.
Proof.
  intros L. unfold obj, upd_obj. cbn [objs]. destruct (nth_error (objs s) p) as [o|] eqn:E; [|apply nth_error_None in E; lia].
  assert (FL : length (firstn p (objs s)) = p) by (rewrite firstn_length; lia).
  destruct (Nat.eqb_spec q p) as [->|NE].
  - rewrite app_nth2 by lia. rewrite FL, Nat.sub_diag. cbn [app nth]. rewrite (nth_error_nth _ _ _ E). reflexivity.
  - destruct (Nat.lt_ge_cases q p) as [L1|L1].
    + rewrite app_nth1 by lia. rewrite <- (firstn_skipn p (objs s)) at 2. rewrite app_nth1 by lia. reflexivity.
    + rewrite app_nth2 by lia. rewrite FL. destruct (q - p)%nat as [|k] eqn:K; [lia|]. cbn [app nth].
      rewrite <- (firstn_skipn (S p) (objs s)) at 2. rewrite app_nth2; rewrite firstn_length; [|lia].
      f_equal. lia.
Qed.
Lemma upd_out s p f : (length (objs s) <= p)%nat -> obj (upd_obj s p f) = obj s.
Proof.
  intros L. unfold upd_obj, obj. cbn [objs]. apply nth_error_None in L as E. rewrite E. cbn [app].
  rewrite firstn_all2, skipn_all2, app_nil_r by lia. reflexivity.
Qed.
(** the id of other objects and of the same object under changes that keep it *)
Lemma id_upd s p f q : (forall o, o_id (f o) = o_id o) -> o_id (obj (upd_obj s p f) q) = o_id (obj s q).
Proof.
  intros H. destruct (Nat.lt_ge_cases p (length (objs s))) as [L|L]; [|rewrite upd_out by exact L; reflexivity].
  rewrite obj_upd by exact L. destruct (Nat.eqb_spec q p) as [->|]; [apply H|reflexivity].
Qed.

(** ** the map *)
Lemma lookup_None id c : lookup id c = None <-> ~ In id (map fst c).
Proof.
  unfold lookup. induction c as [|[k p] c IH]; cbn [find map fst In option_map]; [tauto|].
  destruct (N.eqb_spec k id) as [->|NE]; cbn [option_map]; [split; [discriminate|intros H; exfalso; apply H; auto]|]. rewrite IH. tauto.
Qed.
Lemma lookup_In id c p : lookup id c = Some p -> In (id, p) c.
Proof.
  unfold lookup. induction c as [|[k q] c IH]; cbn [find option_map]; [discriminate|]. cbn [fst].
  destruct (N.eqb_spec k id) as [->|NE]; cbn [option_map snd]; [intros H; inversion H; left; reflexivity|right; auto].
Qed.
Lemma In_lookup id c p : NoDup (map fst c) -> In (id, p) c -> lookup id c = Some p.
Proof.
  unfold lookup. induction c as [|[k q] c IH]; cbn [find map fst In option_map]; [intros _ []|]. intros N1 [H|H].
  - inversion H; subst. rewrite N.eqb_refl. reflexivity.
  - inversion N1; subst. destruct (N.eqb_spec k id) as [->|NE]; [|auto]. exfalso. apply H2. apply (in_map fst) in H. exact H.
Qed.
Lemma erase_In id c e : In e (erase id c) <-> In e c /\ fst e <> id.
Proof. unfold erase. rewrite filter_In. destruct (N.eqb_spec (fst e) id); cbn [negb]; intuition congruence. Qed.
Lemma filter_keys f (c : list (N * nat)) : NoDup (map fst c) -> NoDup (map fst (filter f c)).
Proof.
  induction c as [|e c IH]; cbn [map filter]; [auto|]. intros N1. inversion N1; subst. destruct (f e); cbn [map]; [|auto]. constructor; [|auto].
  intros I. apply H1. apply in_map_iff in I. destruct I as (x & E & I). apply filter_In in I. apply in_map_iff. exists x. tauto.
Qed.

(** ** counting *)
Lemma count_app p a b : count p (a ++ b) = (count p a + count p b)%nat.
Proof. apply count_occ_app. Qed.
Lemma count_In p l : In p l <-> (0 < count p l)%nat.
Proof. unfold count. rewrite (count_occ_In Nat.eq_dec). lia. Qed.
Lemma count_cons p q l : count p (q :: l) = ((if Nat.eqb q p then 1 else 0) + count p l)%nat.
Proof. unfold count. cbn [count_occ]. destruct (Nat.eq_dec q p), (Nat.eqb_spec q p); try lia; contradiction. Qed.
Lemma refs_kept s p : refs s p = (o_ext (obj s p) + count p (kept s))%nat.
Proof. unfold refs, kept, valid. rewrite !count_app. lia. Qed.

Lemma idle_inv s p : idle s p = true -> In p (inv s) ->
  o_obs (obj s p) = true /\ o_ext (obj s p) = 0%nat /\ ~ In p (valid s) /\ count p (inv s) = 1%nat /\ ~ In p (concat (map frame_ptrs (pend s))).
Proof.
  unfold idle. rewrite andb_true_iff, Nat.eqb_eq. intros (R & O) I. apply count_In in I. unfold refs in R. rewrite !count_In. unfold valid.
  repeat split; try lia.
Qed.

Lemma pop_any_spec s l p r : pop_any s l = Some (p, r) -> idle s p = true /\ exists a b, l = a ++ p :: b /\ r = a ++ b.
Proof.
  revert p r. induction l as [|q l IH]; intros p r; cbn [pop_any]; [discriminate|]. destruct (idle s q) eqn:Q.
  - intros H. inversion H; subst. split; [exact Q|]. exists [], r. auto.
  - destruct (pop_any s l) as [[x y]|] eqn:E; [|discriminate]. intros H. inversion H; subst. destruct (IH _ _ eq_refl) as (I1 & a & b & -> & ->).
    split; [exact I1|]. exists (q :: a), b. auto.
Qed.
Lemma pop_id_spec s id l p r : pop_id s id l = Some (p, r) -> idle s p = true /\ o_id (obj s p) = id /\ exists a b, l = a ++ p :: b /\ r = a ++ b.
Proof.
  revert p r. induction l as [|q l IH]; intros p r; cbn [pop_id]; [discriminate|]. destruct (N.eqb_spec (o_id (obj s q)) id) as [E|E].
  - destruct (idle s q) eqn:Q; [|discriminate]. intros H. inversion H; subst. split; [exact Q|]. split; [reflexivity|]. exists [], r. auto.
  - destruct (pop_id s id l) as [[x y]|] eqn:E'; [|discriminate]. intros H. inversion H; subst. destruct (IH _ _ eq_refl) as (I1 & I2 & a & b & -> & ->).
    split; [exact I1|]. split; [exact I2|]. exists (q :: a), b. auto.
Qed.
Lemma free_loop_spec s num l a b : free_loop s num l = (a, b) -> (forall p, In p a -> idle s p = true) /\ Permutation l (a ++ b).
Proof.
  revert num a b. induction l as [|p l IH]; intros num a b; cbn [free_loop].
  - intros H. inversion H; subst. split; [intros ? []|constructor].
  - destruct ((0 <? num) && idle s p) eqn:C.
    + destruct (free_loop s (num - 1) l) as [x y] eqn:E. intros H. inversion H; subst. destruct (IH _ _ _ E) as (I1 & I2).
      apply andb_true_iff in C. split; [intros q [<-|Q]; [tauto|auto]|]. cbn [app]. constructor. exact I2.
    + destruct (free_loop s num l) as [x y] eqn:E. intros H. inversion H; subst. destruct (IH _ _ _ E) as (I1 & I2). split; [exact I1|].
      rewrite I2. apply Permutation_middle.
Qed.

Lemma drop_nth_concat k (l : list pframe) f : nth_error l k = Some f ->
  Permutation (concat (map frame_ptrs l)) (frame_ptrs f ++ concat (map frame_ptrs (drop_nth k l))).
Proof.
  revert k. induction l as [|x l IH]; intros [|k] H; cbn [nth_error] in H; try discriminate.
  - inversion H; subst. unfold drop_nth. cbn [firstn skipn app map concat]. apply Permutation_refl.
  - unfold drop_nth. change (skipn (S (S k)) (x :: l)) with (skipn (S k) l). cbn [firstn app map concat]. fold (drop_nth k l).
    rewrite (IH _ H) at 1. rewrite !app_assoc. apply Permutation_app_tail. apply Permutation_app_comm.
Qed.
Lemma drop_nth_sub {A} k (l : list A) x : In x (drop_nth k l) -> In x l.
Proof.
  unfold drop_nth. rewrite in_app_iff. intros [H|H].
  - rewrite <- (firstn_skipn k l). apply in_or_app. left. exact H.
  - rewrite <- (firstn_skipn (S k) l). apply in_or_app. right. exact H.
Qed.

(** ** ids and keys agree *)
Definition keyed (s : pool) : Prop := NoDup (map fst (can s)) /\ Forall (fun e => o_id (obj s (snd e)) = fst e) (can s).
(** a popped object of change_object_id belongs to that function alone *)
Definition popped (s : pool) : Prop := forall p old id, In (FChg p old id) (pend s) ->
  o_id (obj s old) = id /\ o_ext (obj s old) = 0%nat /\ ~ In old (valid s) /\ ~ In old (inv s) /\ count old (concat (map frame_ptrs (pend s))) = 1%nat.
(** no dangling pointers *)
Definition inside (s : pool) : Prop := Forall (fun p => (p < length (objs s))%nat) (kept s).
Record pinv (s : pool) : Prop := mk_pinv { i_key : keyed s; i_pop : popped s; i_in : inside s }.

Lemma keyed_id s p k : keyed s -> In (k, p) (can s) -> o_id (obj s p) = k.
Proof. intros (_ & F) I. rewrite Forall_forall in F. exact (F _ I). Qed.
Lemma valid_In s p : In p (valid s) <-> exists k, In (k, p) (can s).
Proof. unfold valid. rewrite in_map_iff. split; [intros ([k q] & <- & I); exists k; exact I|intros (k & I); exists (k, p); auto]. Qed.
Lemma keyed_valid s p : keyed s -> (In p (valid s) <-> In (o_id (obj s p), p) (can s)).
Proof. intros K. rewrite valid_In. split; [intros (k & I); rewrite (keyed_id s p k K I); exact I|eauto]. Qed.
Lemma keyed_nodup s : keyed s -> NoDup (valid s).
Proof.
  intros (N1 & F). unfold valid. induction (can s) as [|[k p] c IH]; cbn [map fst snd] in *; [constructor|].
  inversion N1; subst. inversion F; subst. cbn [fst snd] in *. constructor; [|auto]. intros I. apply H1. apply in_map_iff in I. destruct I as ([k' p'] & E & I).
  cbn [snd] in E. subst p'. rewrite Forall_forall in H4. pose proof (H4 _ I) as E. cbn [fst snd] in E. rewrite <- H3, E. apply (in_map fst) in I. exact I.
Qed.

(** the effect of init_object_id *)
Lemma init_spec s p id ok s1 : keyed s -> (p < length (objs s))%nat -> init_object_id s p id = (ok, s1) ->
  inv s1 = inv s /\ pend s1 = pend s /\ cur_id s1 = cur_id s /\ max_size s1 = max_size s /\ length (objs s1) = length (objs s) /\
  (forall q, q <> p -> obj s1 q = obj s q) /\ o_ext (obj s1 p) = o_ext (obj s p) /\ o_obs (obj s1 p) = o_obs (obj s p) /\
  (ok = true -> o_id (obj s1 p) = id) /\ (ok = false -> s1 = s /\ In id (map fst (can s))) /\
  ((o_id (obj s p) = id /\ s1 = s) \/ ok = false \/ (o_id (obj s p) <> id /\ ~ In id (map fst (can s)) /\ can s1 = erase (o_id (obj s p)) (can s) ++ [(id, p)])) /\
  keyed s1.
Proof.
  intros K L. unfold init_object_id. destruct (N.eqb_spec (o_id (obj s p)) id) as [E|E].
  - intros H. inversion H; subst. repeat split; auto; try discriminate; apply K.
  - destruct (lookup id (can s)) as [x|] eqn:LK.
    + intros H. inversion H; subst. repeat split; auto; try discriminate; try apply K. apply lookup_In in LK. apply (in_map fst) in LK. exact LK.
    + apply lookup_None in LK. set (sc := with_can s _). intros H. inversion H; subst.
      assert (OB : forall q, obj (upd_obj sc p (set_id id)) q = if (q =? p)%nat then set_id id (obj s p) else obj s q) by (intros q; apply (obj_upd sc p (set_id id) q L)).
      assert (CA : can sc = erase (o_id (obj s p)) (can s) ++ [(id, p)]).
      { unfold sc. cbn [with_can can]. unfold erase. rewrite filter_app. cbn [filter fst]. destruct (N.eqb_spec id (o_id (obj s p))); [congruence|]. reflexivity. }
      repeat split; try reflexivity; try discriminate.
      * apply (upd_len sc p).
      * intros q NE. rewrite OB. destruct (Nat.eqb_spec q p); [contradiction|reflexivity].
      * rewrite OB, Nat.eqb_refl. reflexivity.
      * rewrite OB, Nat.eqb_refl. reflexivity.
      * rewrite OB, Nat.eqb_refl. reflexivity.
      * right. right. split; [exact E|]. split; [exact LK|]. change (can (upd_obj sc p (set_id id))) with (can sc). exact CA.
      * change (can (upd_obj sc p (set_id id))) with (can sc). rewrite CA, map_app. cbn [map fst]. destruct K as (K & _).
        apply (Permutation_NoDup (Permutation_cons_append (map fst (erase (o_id (obj s p)) (can s))) id)). constructor; [|apply filter_keys; exact K].
        intros I. apply LK. apply in_map_iff in I. destruct I as (e & <- & I). apply erase_In in I. apply in_map. tauto.
      * change (can (upd_obj sc p (set_id id))) with (can sc). rewrite CA. apply Forall_app. split.
        -- rewrite Forall_forall. intros [k q] I. apply erase_In in I. destruct I as (I & NE). cbn [fst snd] in *. pose proof (keyed_id s q k K I) as E'.
           rewrite OB. destruct (Nat.eqb_spec q p) as [->|]; [congruence|exact E'].
        -- constructor; [|constructor]. cbn [fst snd]. rewrite OB, Nat.eqb_refl. reflexivity.
Qed.

(** changing only flags and references of an object *)
Lemma pinv_upd s p f : (forall o, o_id (f o) = o_id o) ->
  (o_ext (f (obj s p)) = o_ext (obj s p) \/ forall q id, ~ In (FChg q p id) (pend s)) -> pinv s -> pinv (upd_obj s p f).
Proof.
  intros F X [K P I]. constructor.
  - split; [apply K|]. change (can (upd_obj s p f)) with (can s). eapply Forall_impl; [|apply K]. intros e E. rewrite id_upd by exact F. exact E.
  - intros q old id C. change (pend (upd_obj s p f)) with (pend s) in *. destruct (P q old id C) as (P1 & P2 & P3 & P4 & P5).
    rewrite id_upd by exact F. repeat split; auto.
    destruct (Nat.lt_ge_cases p (length (objs s))) as [L|L]; [|rewrite upd_out by exact L; exact P2].
    rewrite obj_upd by exact L. destruct (Nat.eqb_spec old p) as [->|]; [|exact P2]. destruct X as [X|X]; [congruence|]. exfalso. exact (X _ _ C).
  - unfold inside. rewrite upd_len. exact I.
Qed.

Lemma perm_count p a b : Permutation a b -> count p a = count p b.
Proof. intros H. unfold count. apply Permutation_count_occ. exact H. Qed.
Lemma concat_app1 l f : concat (map frame_ptrs (l ++ [f])) = concat (map frame_ptrs l) ++ frame_ptrs f.
Proof. rewrite map_app, concat_app. cbn [map concat]. rewrite app_nil_r. reflexivity. Qed.

Lemma chg_other l k f q o i : nth_error l k = Some f -> In (FChg q o i) (drop_nth k l) -> count o (concat (map frame_ptrs l)) = 1%nat ->
  ~ In o (frame_ptrs f) /\ count o (concat (map frame_ptrs (drop_nth k l))) = 1%nat.
Proof.
  intros H C E. rewrite (perm_count _ _ _ (drop_nth_concat k l f H)), count_app in E.
  assert (1 <= count o (concat (map frame_ptrs (drop_nth k l))))%nat.
  { apply count_In. apply in_concat. exists (frame_ptrs (FChg q o i)). split; [apply in_map; exact C|left; reflexivity]. }
  rewrite count_In. lia.
Qed.

Lemma pinv_pstep reuse s a s1 evs : pstep reuse s a = Some (s1, evs) -> pinv s -> pinv s1.
Proof.
  intros ST V0. pose proof V0 as V. destruct V as [K P I]. unfold inside in I. rewrite Forall_forall in I.
  assert (KI : forall p, In p (inv s) -> (p < length (objs s))%nat) by (intros p H; apply I; unfold kept; rewrite !in_app_iff; auto).
  assert (KP : forall p, In p (concat (map frame_ptrs (pend s))) -> (p < length (objs s))%nat) by (intros p H; apply I; unfold kept; rewrite !in_app_iff; auto).
  assert (KV : forall p, In p (valid s) -> (p < length (objs s))%nat) by (intros p H; apply I; unfold kept; rewrite !in_app_iff; auto).
  assert (EX : forall p, (0 <? o_ext (obj s p))%nat = true -> ~ exists q id, In (FChg q p id) (pend s)).
  { intros p E (q & id & C). destruct (P _ _ _ C) as (_ & P2 & _). rewrite P2 in E. discriminate. }
  destruct a as [|p|p|p b|p|p|id|k|p id|p id|k| |num]; cbn [pstep] in ST.
  - (* create *)
    set (id := (1 + cur_id s) mod 18446744073709551616) in *.
    destruct (if reuse then pop_any s (inv s) else None) as [[p l]|] eqn:PA.
    + destruct reuse; [|discriminate]. inversion ST; subst. clear ST. destruct (pop_any_spec _ _ _ _ PA) as (ID & a & b & E1 & E2).
      assert (IN : In p (inv s)) by (rewrite E1; apply in_or_app; right; left; reflexivity).
      destruct (idle_inv s p ID IN) as (O1 & O2 & O3 & O4 & O5). set (f := fun o => more (set_obs false (set_id id o))). set (s0 := with_cur (with_inv s l) id).
      assert (L : (p < length (objs s0))%nat) by (apply KI; exact IN).
      assert (OB : forall q, obj (upd_obj s0 p f) q = if (q =? p)%nat then f (obj s p) else obj s q) by (intros q; apply (obj_upd s0 p f q L)).
      constructor.
      * split; [apply K|]. change (can (upd_obj s0 p f)) with (can s). rewrite Forall_forall. intros [k q] C. rewrite OB. cbn [snd fst].
        destruct (Nat.eqb_spec q p) as [->|]; [exfalso; apply O3; apply valid_In; eauto|exact (keyed_id s q k K C)].
      * intros q old i C. change (pend (upd_obj s0 p f)) with (pend s) in *. destruct (P q old i C) as (P1 & P2 & P3 & P4 & P5). rewrite OB.
        destruct (Nat.eqb_spec old p) as [->|]; [contradiction|]. repeat split; auto. intros IN'. apply P4. rewrite E1. change (inv (upd_obj s0 p f)) with l in IN'.
        rewrite E2 in IN'. rewrite in_app_iff in *. cbn [In]. tauto.
      * unfold inside. rewrite upd_len. rewrite Forall_forall. intros q Q. apply I. unfold kept in *. change (valid (upd_obj s0 p f)) with (valid s) in Q.
        change (inv (upd_obj s0 p f)) with l in Q. change (pend (upd_obj s0 p f)) with (pend s) in Q. rewrite E1. rewrite E2 in Q. rewrite !in_app_iff in *. cbn [In]. tauto.
    + inversion ST; subst. clear ST. set (s1 := mk_p _ _ _ _ _ _).
      assert (OB : forall q, (q < length (objs s))%nat -> obj s1 q = obj s q) by (intros q L; unfold obj, s1; cbn [objs]; rewrite app_nth1 by exact L; reflexivity).
      constructor.
      * split; [apply K|]. change (can s1) with (can s). rewrite Forall_forall. intros [k q] C. cbn [snd fst]. rewrite OB; [exact (keyed_id s q k K C)|].
        apply KV. apply valid_In. eauto.
      * intros q old i C. destruct (P q old i C) as (P1 & P2 & P3 & P4 & P5). rewrite OB; [repeat split; auto|]. apply KP. apply count_In. lia.
      * unfold inside. rewrite Forall_forall. intros q Q. change (objs s1) with (objs s ++ [mk_po id false 1]). rewrite app_length. specialize (I q Q). lia.
  - (* hold *)
    destruct ((0 <? o_ext (obj s p))%nat || listed s p) eqn:E; [|discriminate]. inversion ST; subst. apply pinv_upd; [reflexivity| |exact V0].
    right. intros q id C. apply orb_true_iff in E. destruct E as [E|E]; [apply (EX p E); eauto|]. unfold listed in E. apply existsb_exists in E.
    destruct E as (x & X & E). apply Nat.eqb_eq in E. subst x. destruct (P _ _ _ C) as (_ & _ & P3 & P4 & _). apply in_app_iff in X. destruct X; contradiction.
  - (* drop *)
    destruct (0 <? o_ext (obj s p))%nat eqn:E; [|discriminate]. inversion ST; subst. apply pinv_upd; [reflexivity| |exact V0].
    right. intros q id C. apply (EX p E). eauto.
  - (* obsolete *)
    destruct (0 <? refs s p)%nat eqn:E; [|discriminate]. inversion ST; subst. apply pinv_upd; [reflexivity|left; reflexivity|exact V0].
  - (* add *)
    destruct (0 <? o_ext (obj s p))%nat eqn:E; [|discriminate]. destruct (lookup (o_id (obj s p)) (can s)) eqn:LK; [inversion ST; subst; exact V0|].
    destruct (_ <? max_size s); inversion ST; subst; [|exact V0]. apply lookup_None in LK. constructor.
    + split; cbn [with_can can].
      * rewrite map_app. cbn [map fst]. apply (Permutation_NoDup (Permutation_cons_append _ _)). constructor; [exact LK|apply K].
      * apply Forall_app. split; [apply K|]. constructor; [reflexivity|constructor].
    + intros q old i C. destruct (P q old i C) as (P1 & P2 & P3 & P4 & P5). repeat split; auto. unfold valid. cbn [with_can can]. rewrite map_app, in_app_iff. cbn [map snd In].
      intros [X|[X|[]]]; [apply P3; exact X|]. subst old. apply (EX p E). eauto.
    + unfold inside. rewrite Forall_forall. intros q. unfold kept, valid. cbn [with_can can inv pend objs]. rewrite map_app, !in_app_iff. cbn [map snd In].
      intros [[X|[X|[]]]|[X|X]]; auto. subst q. apply ext_in. exact E.
  - (* delete by pointer *)
    destruct (0 <? o_ext (obj s p))%nat eqn:E; [|discriminate]. destruct (lookup (o_id (obj s p)) (can s)) eqn:LK; inversion ST; subst; [|exact V0]. constructor.
    + split; cbn [with_can with_pend can]; [apply filter_keys, K|]. rewrite Forall_forall. intros e C. apply erase_In in C. destruct K as (_ & K). rewrite Forall_forall in K. apply K. tauto.
    + intros q old i C. cbn [with_pend pend] in C. apply in_app_iff in C. destruct C as [C|[C|[]]]; [|discriminate]. destruct (P q old i C) as (P1 & P2 & P3 & P4 & P5).
      assert (NE : old <> p) by (intros ->; apply (EX p E); eauto). repeat split; auto.
      * intros X. apply P3. unfold valid in *. cbn [with_can with_pend can] in X. apply in_map_iff in X. destruct X as (e & <- & X). apply erase_In in X. apply in_map. tauto.
      * cbn [with_pend pend]. rewrite concat_app1, count_app. cbn [frame_ptrs]. rewrite count_cons. destruct (Nat.eqb_spec p old); [congruence|]. cbn. lia.
    + unfold inside. rewrite Forall_forall. intros q. unfold kept, valid. cbn [with_can with_pend can inv pend objs]. rewrite concat_app1, !in_app_iff. cbn [frame_ptrs In].
      intros [X|[X|[X|[X|[]]]]]; auto; [|subst q; apply ext_in; exact E]. apply KV. apply in_map_iff in X. destruct X as (e & <- & X). apply erase_In in X. apply in_map. tauto.
  - (* delete by id *)
    destruct (lookup id (can s)) as [p|] eqn:LK; inversion ST; subst; [|exact V0]. apply lookup_In in LK. assert (VP : In p (valid s)) by (apply valid_In; eauto). constructor.
    + split; cbn [with_can with_pend can]; [apply filter_keys, K|]. rewrite Forall_forall. intros e C. apply erase_In in C. destruct K as (_ & K). rewrite Forall_forall in K. apply K. tauto.
    + intros q old i C. cbn [with_pend pend] in C. apply in_app_iff in C. destruct C as [C|[C|[]]]; [|discriminate]. destruct (P q old i C) as (P1 & P2 & P3 & P4 & P5).
      assert (NE : old <> p) by congruence. repeat split; auto.
      * intros X. apply P3. unfold valid in *. cbn [with_can with_pend can] in X. apply in_map_iff in X. destruct X as (e & <- & X). apply erase_In in X. apply in_map. tauto.
      * cbn [with_pend pend]. rewrite concat_app1, count_app. cbn [frame_ptrs]. rewrite count_cons. destruct (Nat.eqb_spec p old); [congruence|]. cbn. lia.
    + unfold inside. rewrite Forall_forall. intros q. unfold kept, valid. cbn [with_can with_pend can inv pend objs]. rewrite concat_app1, !in_app_iff. cbn [frame_ptrs In].
      intros [X|[X|[X|[X|[]]]]]; auto; [|subst q; auto]. apply KV. apply in_map_iff in X. destruct X as (e & <- & X). apply erase_In in X. apply in_map. tauto.
  - (* push *)
    destruct (nth_error (pend s) k) as [[ps|]|] eqn:NT; try discriminate. inversion ST; subst. constructor.
    + exact K.
    + intros q old i C. cbn [with_pend pend] in C. destruct (P q old i (drop_nth_sub _ _ _ C)) as (P1 & P2 & P3 & P4 & P5).
      destruct (chg_other _ _ _ _ _ _ NT C P5) as (Q1 & Q2). repeat split; auto. cbn [with_inv with_pend inv]. rewrite in_app_iff. intros [X|X]; [auto|]. exact (Q1 X).
    + unfold inside. rewrite Forall_forall. intros q. unfold kept. cbn [with_inv with_pend inv pend objs]. rewrite !in_app_iff. intros [X|[[X|X]|X]]; auto; apply KP;
        apply (Permutation_in _ (Permutation_sym (drop_nth_concat _ _ _ NT))); apply in_or_app; auto.
  - (* init *)
    destruct (0 <? o_ext (obj s p))%nat eqn:E; [|discriminate]. destruct (init_object_id s p id) as [ok s2] eqn:IN. inversion ST; subst. clear ST.
    pose proof (ext_in s p E) as L. destruct (init_spec _ _ _ _ _ K L IN) as (J1 & J2 & _ & _ & J5 & J6 & J7 & _ & _ & _ & J11 & J12).
    assert (VS : forall q, In q (valid s1) -> In q (valid s) \/ q = p).
    { intros q. destruct J11 as [(_ & ->)|[->|(_ & _ & J)]]; [tauto| |].
      - destruct (init_spec _ _ _ _ _ K L IN) as (_ & _ & _ & _ & _ & _ & _ & _ & _ & (-> & _) & _); tauto.
      - unfold valid. rewrite J, map_app, in_app_iff. cbn [map snd In]. intros [X|[X|[]]]; [|auto]. left. apply in_map_iff in X. destruct X as (e & <- & X). apply erase_In in X. apply in_map. tauto. }
    constructor; [exact J12| |].
    + intros q old i C. rewrite J2 in C. destruct (P q old i C) as (P1 & P2 & P3 & P4 & P5). assert (NE : old <> p) by (intros ->; apply (EX p E); eauto).
      rewrite (J6 _ NE), J1, J2. repeat split; auto. intros X. apply VS in X. tauto.
    + unfold inside. rewrite Forall_forall. intros q. unfold kept. rewrite J1, J2, J5, !in_app_iff. intros [X|[X|X]]; auto. apply VS in X. destruct X as [X| ->]; auto.
  - (* change *)
    destruct (0 <? o_ext (obj s p))%nat eqn:E; [|discriminate]. destruct (pop_id s id (inv s)) as [[old l]|] eqn:PI; inversion ST; subst; [|exact V0].
    destruct (pop_id_spec _ _ _ _ _ PI) as (ID & OI & a & b & E1 & E2).
    assert (IN : In old (inv s)) by (rewrite E1; apply in_or_app; right; left; reflexivity).
    destruct (idle_inv s old ID IN) as (O1 & O2 & O3 & O4 & O5). constructor.
    + exact K.
    + intros q o i C. cbn [with_pend pend with_inv inv] in *. rewrite concat_app1, count_app. cbn [frame_ptrs]. rewrite count_cons. apply in_app_iff in C. destruct C as [C|[C|[]]].
      * destruct (P q o i C) as (P1 & P2 & P3 & P4 & P5). assert (NE : old <> o) by congruence. repeat split; auto.
        -- rewrite E2. intros X. apply P4. rewrite E1. rewrite in_app_iff in *. cbn [In]. tauto.
        -- destruct (Nat.eqb_spec old o); [contradiction|]. cbn. lia.
      * inversion C; subst. repeat split; auto.
        -- intros X. rewrite E1, count_app, count_cons, Nat.eqb_refl in O4. apply in_app_iff in X. rewrite !count_In in X. lia.
        -- rewrite count_In in O5. rewrite Nat.eqb_refl. cbn. lia.
    + unfold inside. rewrite Forall_forall. intros q. unfold kept. cbn [with_inv with_pend inv pend objs]. rewrite concat_app1, !in_app_iff. cbn [frame_ptrs In].
      intros [X|[X|[X|[X|[]]]]]; auto; [|subst; auto]. apply KI. rewrite E1. rewrite E2 in X. rewrite in_app_iff in *. cbn [In]. tauto.
  - (* change, second part *)
    destruct (nth_error (pend s) k) as [[|p old id]|] eqn:NT; try discriminate. destruct (0 <? o_ext (obj s p))%nat eqn:E; [|discriminate].
    set (s0 := with_pend s (drop_nth k (pend s))) in *. destruct (init_object_id s0 p id) as [ok s2] eqn:IN.
    pose proof (ext_in s p E) as L. assert (K0 : keyed s0) by exact K.
    destruct (init_spec _ _ _ _ _ K0 L IN) as (J1 & J2 & _ & _ & J5 & J6 & J7 & _ & _ & _ & J11 & J12). change (inv s0) with (inv s) in *. change (objs s0) with (objs s) in *.
    change (obj s0) with (obj s) in *. change (pend s0) with (drop_nth k (pend s)) in *.
    assert (VS : forall q, In q (valid s2) -> In q (valid s) \/ q = p).
    { intros q. destruct J11 as [(_ & ->)|[->|(_ & _ & J)]]; [tauto| |].
      - destruct (init_spec _ _ _ _ _ K0 L IN) as (_ & _ & _ & _ & _ & _ & _ & _ & _ & (-> & _) & _); tauto.
      - unfold valid. rewrite J, map_app, in_app_iff. cbn [map snd In]. intros [X|[X|[]]]; [|auto]. left. apply in_map_iff in X. destruct X as (e & <- & X). apply erase_In in X. apply in_map. tauto. }
    assert (CO : In (FChg p old id) (pend s)) by (eapply nth_error_In; exact NT).
    assert (OL : In old (concat (map frame_ptrs (pend s)))) by (apply in_concat; exists [old]; split; [apply (in_map frame_ptrs) in CO; exact CO|left; reflexivity]).
    assert (V2 : pinv s2).
    { constructor; [exact J12| |].
      + intros q o i C. rewrite J2 in C. destruct (P q o i (drop_nth_sub _ _ _ C)) as (P1 & P2 & P3 & P4 & P5). assert (NE : o <> p) by (intros ->; apply (EX p E); eauto using drop_nth_sub).
        rewrite (J6 _ NE), J1, J2. destruct (chg_other _ _ _ _ _ _ NT C P5) as (_ & Q2). repeat split; auto. intros X. apply VS in X. tauto.
      + unfold inside. rewrite Forall_forall. intros q. unfold kept. rewrite J1, J2, J5, !in_app_iff. intros [X|[X|X]]; auto.
        * apply VS in X. destruct X as [X| ->]; auto.
        * apply KP. apply (Permutation_in _ (Permutation_sym (drop_nth_concat _ _ _ NT))). apply in_or_app; auto. }
    assert (NO : forall q i, ~ In (FChg q old i) (pend s2)).
    { intros q i C. rewrite J2 in C. destruct (P q old i (drop_nth_sub _ _ _ C)) as (_ & _ & _ & _ & P5). destruct (chg_other _ _ _ _ _ _ NT C P5) as (Q1 & _). apply Q1. left. reflexivity. }
    destruct ok; inversion ST; subst.
    + apply pinv_upd; [reflexivity|right; exact NO|exact V2].
    + destruct V2 as [K2 P2 I2]. constructor; [exact K2| |].
      * intros q o i C. cbn [with_pend pend] in *. apply in_app_iff in C. destruct C as [C|[C|[]]]; [|discriminate]. destruct (P2 q o i C) as (R1 & R2 & R3 & R4 & R5).
        assert (NE : o <> old) by (intros ->; exact (NO _ _ C)). repeat split; auto. rewrite concat_app1, count_app. cbn [frame_ptrs]. rewrite count_cons.
        destruct (Nat.eqb_spec old o); [congruence|]. cbn. lia.
      * unfold inside in *. rewrite Forall_forall in *. intros q. unfold kept. cbn [with_pend pend objs inv]. rewrite concat_app1, !in_app_iff. cbn [frame_ptrs In]. intros X.
        assert (Y : In q (kept s2) \/ q = old) by (unfold kept; rewrite !in_app_iff; intuition auto). destruct Y as [Y| ->]; [exact (I2 _ Y)|]. rewrite J5. apply KP. exact OL.
  - (* clear *)
    destruct (filter (fun e => o_obs (obj s (snd e))) (can s)) as [|g gs] eqn:GO; inversion ST; subst; [exact V0|]. clear ST. change (snd g :: map snd gs) with (map snd (g :: gs)). rewrite <- GO.
    assert (GV : forall q, In q (map snd (filter (fun e => o_obs (obj s (snd e))) (can s))) -> In q (valid s)).
    { intros q X. apply in_map_iff in X. destruct X as (e & <- & X). apply filter_In in X. apply in_map. tauto. }
    constructor.
    + split; cbn [with_can with_pend can]; [apply filter_keys, K|]. rewrite Forall_forall. intros e C. apply filter_In in C. destruct K as (_ & K). rewrite Forall_forall in K. apply K. tauto.
    + intros q old i C. cbn [with_pend pend] in *. apply in_app_iff in C. destruct C as [C|[C|[]]]; [|discriminate]. destruct (P q old i C) as (P1 & P2 & P3 & P4 & P5). repeat split; auto.
      * intros X. apply P3. unfold valid in *. cbn [with_can with_pend can] in X. apply in_map_iff in X. destruct X as (e & <- & X). apply filter_In in X. apply in_map. tauto.
      * rewrite concat_app1, count_app. cbn [frame_ptrs]. assert (Z : ~ In old (map snd (filter (fun e => o_obs (obj s (snd e))) (can s)))) by (intros X; apply P3, GV, X).
        rewrite count_In in Z. lia.
    + unfold inside. rewrite Forall_forall. intros q. unfold kept, valid. cbn [with_can with_pend can inv pend objs]. rewrite concat_app1, !in_app_iff. cbn [frame_ptrs].
      intros [X|[X|[X|X]]]; auto. apply KV. apply in_map_iff in X. destruct X as (e & <- & X). apply filter_In in X. apply in_map. tauto.
  - (* free *)
    destruct (free_loop s num (inv s)) as [freed l] eqn:FL. inversion ST; subst. destruct (free_loop_spec _ _ _ _ _ FL) as (_ & PM). constructor.
    + exact K.
    + intros q old i C. destruct (P q old i C) as (P1 & P2 & P3 & P4 & P5). repeat split; auto. cbn [with_inv inv]. intros X. apply P4. apply (Permutation_in _ (Permutation_sym PM)). apply in_or_app. auto.
    + unfold inside. rewrite Forall_forall. intros q. unfold kept. cbn [with_inv inv pend objs]. rewrite !in_app_iff. intros [X|[X|X]]; auto. apply KI.
      apply (Permutation_in _ (Permutation_sym PM)). apply in_or_app. auto.
Qed.

Lemma pinv_new start max : pinv (new_pool start max).
Proof. constructor; [split; constructor|intros ? ? ? []|constructor]. Qed.
Lemma pinv_psteps reuse al : forall s s1 evs, psteps reuse s al = Some (s1, evs) -> pinv s -> pinv s1.
Proof.
  induction al as [|a al IH]; intros s s1 evs H V; cbn [psteps] in H; [inversion H; subst; exact V|].
  destruct (pstep reuse s a) as [[s2 l2]|] eqn:E; [|discriminate]. destruct (psteps reuse s2 al) as [[s3 l3]|] eqn:E3; [|discriminate]. inversion H; subst.
  exact (IH _ _ _ E3 (pinv_pstep _ _ _ _ _ E V)).
Qed.

(** ** conservation under the discipline *)
Lemma count_nil p : count p [] = 0%nat.
Proof. reflexivity. Qed.
Lemma by_count a b : (forall x, count x a = count x b) -> Permutation a b.
Proof. intros H. apply (Permutation_count_occ Nat.eq_dec). exact H. Qed.
Ltac counts := apply by_count; let x := fresh "x" in intros x; repeat rewrite ?count_app, ?count_cons, ?count_nil; try lia.
Lemma erase_none k c : ~ In k (map fst c) -> erase k c = c.
Proof.
  induction c as [|[k' p'] c IH]; intros H; cbn [erase filter fst map In] in *; [reflexivity|]. unfold erase in *. destruct (N.eqb_spec k' k); [tauto|]. cbn [negb]. f_equal. apply IH. tauto.
Qed.
Lemma erase_perm k p c : NoDup (map fst c) -> In (k, p) c -> Permutation (map snd c) (p :: map snd (erase k c)).
Proof.
  induction c as [|[k' p'] c IH]; [intros _ []|]. cbn [map fst In snd]. intros N1 [H|H].
  - inversion H; subst. inversion N1; subst. unfold erase. cbn [filter fst]. rewrite N.eqb_refl. cbn [negb]. fold (erase k c). rewrite erase_none by assumption. apply Permutation_refl.
  - inversion N1; subst. assert (k' <> k) by (intros ->; apply H2; apply (in_map fst) in H; exact H). unfold erase. cbn [filter fst]. destruct (N.eqb_spec k' k); [contradiction|].
    cbn [negb map snd]. fold (erase k c). rewrite (IH H3 H). apply perm_swap.
Qed.
Lemma erase_len k p c : NoDup (map fst c) -> In (k, p) c -> length c = S (length (erase k c)).
Proof. intros N1 I. pose proof (Permutation_length (erase_perm k p c N1 I)) as E. cbn [length] in E. rewrite !map_length in E. exact E. Qed.
Lemma filter_perm {A} (f : A -> bool) l : Permutation l (filter (fun x => negb (f x)) l ++ filter f l).
Proof.
  induction l as [|x l IH]; cbn [filter]; [constructor|]. destruct (f x); cbn [negb].
  - rewrite IH at 1. apply Permutation_middle.
  - cbn [app]. constructor. exact IH.
Qed.
Lemma kept_eq s s1 : map snd (can s1) = map snd (can s) -> inv s1 = inv s -> pend s1 = pend s -> kept s1 = kept s.
Proof. unfold kept, valid. intros -> -> ->. reflexivity. Qed.
Lemma left_free l : left (map EvFree l) = l.
Proof. unfold left. induction l as [|x l IH]; cbn [map concat leaves app]; congruence. Qed.
Lemma entered_free l : entered (map EvFree l) = [].
Proof. unfold entered. induction l as [|x l IH]; cbn [map concat enters app]; congruence. Qed.
Lemma entered_app a b : entered (a ++ b) = entered a ++ entered b.
Proof. unfold entered. rewrite map_app. apply concat_app. Qed.
Lemma left_app a b : left (a ++ b) = left a ++ left b.
Proof. unfold left. rewrite map_app. apply concat_app. Qed.

Lemma pred_perm {A} (a b c d : list A) : Permutation (a ++ b) (c ++ d) -> Permutation (b ++ a) (d ++ c).
Proof. intros H. rewrite Permutation_app_comm, H. apply Permutation_app_comm. Qed.

(** init_object_id of a valid object *)
Lemma init_valid s p id ok s1 : keyed s -> In p (valid s) -> (p < length (objs s))%nat -> init_object_id s p id = (ok, s1) ->
  Permutation (valid s1) (valid s) /\ length (can s1) = length (can s) /\ inv s1 = inv s /\ pend s1 = pend s /\ max_size s1 = max_size s.
Proof.
  intros K IV L IN. destruct (init_spec _ _ _ _ _ K L IN) as (J1 & J2 & _ & J4 & _ & _ & _ & _ & _ & J10 & J11 & _).
  destruct J11 as [(_ & ->)|[->|(_ & _ & J)]]; [auto|destruct (J10 eq_refl) as (-> & _); auto|].
  apply (keyed_valid s p K) in IV. unfold valid. rewrite J, map_app. cbn [map snd]. split; [|split].
  - rewrite (erase_perm _ _ _ (proj1 K) IV). symmetry. apply Permutation_cons_append.
  - rewrite app_length, (erase_len _ _ _ (proj1 K) IV). cbn [length]. lia.
  - auto.
Qed.

Lemma conserve_step reuse s a s1 evs : pinv s -> careful s a -> pstep reuse s a = Some (s1, evs) ->
  Permutation (kept s1 ++ left evs) (kept s ++ entered evs) /\
  (N.of_nat (length (can s)) <= max_size s -> N.of_nat (length (can s1)) <= max_size s1) /\ max_size s1 = max_size s /\
  (forall p, In p (entered evs) -> ~ In p (kept s)).
Proof.
  intros [K P I] CF ST. unfold inside in I. rewrite Forall_forall in I.
  assert (KV : forall p, In p (valid s) -> (p < length (objs s))%nat) by (intros p H; apply I; unfold kept; rewrite !in_app_iff; auto).
  destruct a as [|p|p|p b|p|p|id|k|p id|p id|k| |num]; cbn [pstep careful] in *.
  - destruct (if reuse then pop_any s (inv s) else None) as [[p l]|] eqn:PA; inversion ST; subst.
    + destruct reuse; [|discriminate]. destruct (pop_any_spec _ _ _ _ PA) as (_ & a & b & E1 & E2). split; [|split; [auto|split; [reflexivity|intros ? []]]].
      unfold kept. change (valid (upd_obj _ _ _)) with (valid s). change (pend (upd_obj _ _ _)) with (pend s). change (inv (upd_obj _ _ _)) with l. rewrite E1, E2.
      unfold left, entered. cbn [map concat leaves enters app]. rewrite app_nil_r, <- !app_assoc. counts.
    + split; [apply Permutation_refl|]. split; [auto|]. split; [reflexivity|intros ? []].
  - destruct (_ || _); [|discriminate]. inversion ST; subst. split; [apply Permutation_refl|]. split; [auto|]. split; [reflexivity|intros ? []].
  - destruct (_ <? _)%nat; [|discriminate]. inversion ST; subst. split; [apply Permutation_refl|]. split; [auto|]. split; [reflexivity|intros ? []].
  - destruct (_ <? _)%nat; [|discriminate]. inversion ST; subst. split; [apply Permutation_refl|]. split; [auto|]. split; [reflexivity|intros ? []].
  - destruct (_ <? _)%nat; [|discriminate]. destruct (lookup (o_id (obj s p)) (can s)) eqn:LK; [inversion ST; subst; split; [apply Permutation_refl|]; split; [auto|]; split; [reflexivity|intros ? []]|].
    destruct (N.ltb_spec (N.of_nat (length (can s))) (max_size s)); inversion ST; subst; [|split; [apply Permutation_refl|]; split; [auto|]; split; [reflexivity|intros ? []]].
    split; [|split; [|split; [reflexivity|]]].
    + unfold kept, valid, left, entered. cbn [with_can can inv pend map concat leaves enters app]. rewrite map_app. cbn [map snd]. counts.
    + intros _. cbn [with_can can max_size]. rewrite app_length. cbn [length]. lia.
    + intros q [<-|[]]. exact CF.
  - destruct (_ <? _)%nat; [|discriminate]. destruct (lookup (o_id (obj s p)) (can s)) as [q|] eqn:LK; inversion ST; subst; [|split; [apply Permutation_refl|]; split; [auto|]; split; [reflexivity|intros ? []]].
    apply lookup_In in LK. assert (q = p) by (apply CF; [apply valid_In; eauto|exact (keyed_id s q _ K LK)]). subst q.
    split; [|split; [|split; [reflexivity|intros ? []]]].
    + unfold kept, valid. cbn [with_can with_pend can inv pend left entered map concat leaves enters app]. rewrite concat_app1. cbn [frame_ptrs]. unfold left, entered. cbn [map concat leaves enters app].
      pose proof (erase_perm _ _ _ (proj1 K) LK) as EP. counts. apply (perm_count x) in EP. rewrite count_cons in EP. lia.
    + cbn [with_can with_pend can max_size]. rewrite (erase_len _ _ _ (proj1 K) LK). lia.
  - destruct (lookup id (can s)) as [q|] eqn:LK; inversion ST; subst; [|split; [apply Permutation_refl|]; split; [auto|]; split; [reflexivity|intros ? []]].
    apply lookup_In in LK. split; [|split; [|split; [reflexivity|intros ? []]]].
    + unfold kept, valid. cbn [with_can with_pend can inv pend]. rewrite concat_app1. cbn [frame_ptrs]. unfold left, entered. cbn [map concat leaves enters app].
      pose proof (erase_perm _ _ _ (proj1 K) LK) as EP. counts. apply (perm_count x) in EP. rewrite count_cons in EP. lia.
    + cbn [with_can with_pend can max_size]. rewrite (erase_len _ _ _ (proj1 K) LK). lia.
  - destruct (nth_error (pend s) k) as [[ps|]|] eqn:NT; try discriminate. inversion ST; subst. split; [|split; [auto|split; [reflexivity|intros ? []]]].
    unfold kept, valid, left, entered. cbn [with_inv with_pend can inv pend map concat leaves enters app]. rewrite !app_nil_r. pose proof (drop_nth_concat _ _ _ NT) as EP. counts. apply (perm_count x) in EP. rewrite count_app in EP. cbn [frame_ptrs] in EP. lia.
  - destruct (_ <? _)%nat; [|discriminate]. destruct (init_object_id s p id) as [ok s2] eqn:IN. inversion ST; subst. clear ST.
    destruct (init_valid _ _ _ _ _ K CF (KV _ CF) IN) as (V1 & V2 & V3 & V4 & V5). split; [|split; [lia|split; [exact V5|destruct ok; intros ? []]]].
    unfold kept. rewrite V3, V4. unfold left, entered. cbn [map concat leaves enters app]. counts. apply (perm_count x) in V1. lia.
  - destruct (_ <? _)%nat; [|discriminate]. destruct (pop_id s id (inv s)) as [[old l]|] eqn:PI; inversion ST; subst; [|split; [apply Permutation_refl|]; split; [auto|]; split; [reflexivity|intros ? []]].
    destruct (pop_id_spec _ _ _ _ _ PI) as (_ & _ & a & b & E1 & E2). split; [|split; [auto|split; [reflexivity|intros ? []]]].
    unfold kept, valid, left, entered. cbn [with_inv with_pend can inv pend map concat leaves enters app]. rewrite !app_nil_r, concat_app1. cbn [frame_ptrs]. rewrite E1, E2. counts.
  - destruct (nth_error (pend s) k) as [[|p old id]|] eqn:NT; try discriminate. destruct (_ <? _)%nat; [|discriminate]. specialize (CF _ _ _ eq_refl).
    set (s0 := with_pend s (drop_nth k (pend s))) in *. destruct (init_object_id s0 p id) as [ok s2] eqn:IN.
    destruct (init_valid s0 _ _ _ _ K CF (KV _ CF) IN) as (V1 & V2 & V3 & V4 & V5). change (valid s0) with (valid s) in *. change (inv s0) with (inv s) in *. change (can s0) with (can s) in *.
    change (pend s0) with (drop_nth k (pend s)) in *. change (max_size s0) with (max_size s) in *.
    pose proof (drop_nth_concat _ _ _ NT) as PM. cbn [frame_ptrs app] in PM.
    destruct ok; inversion ST; subst.
    + split; [|split; [cbn [upd_obj can max_size]; lia|split; [exact V5|intros ? []]]]. unfold kept. change (valid (upd_obj s2 old more)) with (valid s2).
      change (inv (upd_obj s2 old more)) with (inv s2). change (pend (upd_obj s2 old more)) with (pend s2). rewrite V3, V4. unfold left, entered. cbn [map concat leaves enters app]. counts. apply (perm_count x) in V1, PM. rewrite count_cons in PM. lia.
    + split; [|split; [cbn [with_pend can max_size]; lia|split; [exact V5|intros ? []]]]. unfold kept. change (valid (with_pend s2 _)) with (valid s2). cbn [with_pend inv pend]. rewrite V3, V4, concat_app1.
      unfold left, entered. cbn [map concat leaves enters app frame_ptrs]. counts. apply (perm_count x) in V1, PM. rewrite count_cons in PM. lia.
  - destruct (filter (fun e => o_obs (obj s (snd e))) (can s)) as [|g gs] eqn:GO; inversion ST; subst; [split; [apply Permutation_refl|]; split; [auto|]; split; [reflexivity|intros ? []]|].
    clear ST. change (snd g :: map snd gs) with (map snd (g :: gs)). rewrite <- GO. pose proof (filter_perm (fun e => o_obs (obj s (snd e))) (can s)) as FP. split; [|split; [|split; [reflexivity|intros ? []]]].
    + unfold kept, valid. cbn [with_can with_pend can inv pend]. rewrite concat_app1. cbn [frame_ptrs]. unfold left, entered. cbn [map concat]. pose proof (Permutation_map snd FP) as EP. rewrite map_app in EP. counts. apply (perm_count x) in EP. rewrite count_app in EP. lia.
    + cbn [with_can with_pend can max_size]. apply Permutation_length in FP. rewrite app_length in FP. lia.
  - destruct (free_loop s num (inv s)) as [freed l] eqn:FL. inversion ST; subst. destruct (free_loop_spec _ _ _ _ _ FL) as (_ & PM). rewrite left_free, entered_free.
    split; [|split; [auto|split; [reflexivity|intros ? []]]]. unfold kept, valid. cbn [with_inv can inv pend]. counts. apply (perm_count x) in PM. rewrite count_app in PM. lia.
Qed.

Lemma conserve reuse al : forall s s1 tr, pinv s -> careful_run reuse s al -> psteps reuse s al = Some (s1, tr) ->
  Permutation (kept s1 ++ left tr) (kept s ++ entered tr) /\
  (N.of_nat (length (can s)) <= max_size s -> N.of_nat (length (can s1)) <= max_size s1) /\ max_size s1 = max_size s /\
  (NoDup (kept s) -> NoDup (kept s1)).
Proof.
  induction al as [|a al IH]; intros s s1 tr V CF H; cbn [psteps careful_run] in *; [inversion H; subst; repeat split; auto|].
  destruct CF as (CF1 & CF2). destruct (pstep reuse s a) as [[s2 l2]|] eqn:E; [|discriminate]. destruct (psteps reuse s2 al) as [[s3 l3]|] eqn:E3; [|discriminate]. inversion H; subst.
  destruct (conserve_step _ _ _ _ _ V CF1 E) as (C1 & C2 & C3 & C4). destruct (IH _ _ _ (pinv_pstep _ _ _ _ _ E V) CF2 E3) as (D1 & D2 & D3 & D4).
  split; [|split; [auto|split; [congruence|]]].
  - rewrite left_app, entered_app. counts. apply (perm_count x) in C1, D1. rewrite !count_app in *. lia.
  - intros ND. apply D4. assert (NE : NoDup (kept s ++ entered l2)).
    { assert (EN : entered l2 = [] \/ exists p, entered l2 = [p]).
      { clear -E. destruct a; cbn [pstep] in E;
          repeat match type of E with
          | (match ?x with _ => _ end) = _ => destruct x
          | (let '(_, _) := ?x in _) = _ => destruct x
          end; inversion E; subst; try (left; reflexivity); try (right; eexists; reflexivity); try (left; apply entered_free). }
      destruct EN as [->|(p & EN)]; [rewrite app_nil_r; exact ND|]. rewrite EN in *. apply (Permutation_NoDup (Permutation_cons_append _ _)). constructor; [apply C4; left; reflexivity|exact ND]. }
    apply (Permutation_NoDup (Permutation_sym C1)) in NE. clear -NE. induction (kept s2) as [|x l IHl]; [constructor|]. cbn [app] in NE. inversion NE; subst. constructor; [rewrite in_app_iff in *; tauto|auto].
Qed.
