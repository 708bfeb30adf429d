(** Properties of ext::basic_buffer (C17, C18). *)
From Coq Require Import List NArith Bool Lia ZifyBool ZifyNat ZifyN.
From Verif Require Import M_Bytes M_Buffer S_Buffer.
From Verif Require L_Bytes L_Buffer.
Import ListNotations.
Open Scope N_scope.

Definition env_ok (e : benv) : Prop := size_t_range e = 2^32 \/ size_t_range e = 2^64.

(** the pairs of objects that any sequence of operations can produce, whatever the allocator does and
    whether or not operations throw *)
Inductive reached : bbuf -> bbuf -> Prop :=
| R_new : reached detached detached
| R_done e x y o x' y' : reached x y -> env_ok e -> op_ok (size_t_range e) o -> bb_step e x y o = PDone x' y' -> reached x' y'
| R_throw e x y o x' y' : reached x y -> env_ok e -> op_ok (size_t_range e) o -> bb_step e x y o = PThrow x' y' -> reached x' y'.

Lemma reached_ok x y : reached x y -> bb_ok x /\ bb_ok y.
Proof.
  induction 1 as [|e x y o x' y' R [IX IY] HE HO E|e x y o x' y' R [IX IY] HE HO E].
  - split; split; reflexivity.
  - pose proof (L_Buffer.bb_step_ok e x y o HE IX IY HO) as S. rewrite E in S. tauto.
  - pose proof (L_Buffer.bb_step_ok e x y o HE IX IY HO) as S. rewrite E in S. destruct S as (S1 & S2 & _). subst y'. auto.
Qed.

(** C17: after any history, every operation leaves the string that std::string semantics prescribes, size() and
    the own block stay consistent, an exception is thrown only for a size above UINT_MAX, an illegal position or
    a failed allocation (then the string is as given by [str_thrown]); nothing undefined ever happens. *)
Theorem C17_buffer_is_a_string : forall x y e o,
  reached x y -> env_ok e -> op_ok (size_t_range e) o ->
  (bb_size x = lenN (content x) /\ bb_size x <= bcap x /\ match bmem x with Some m => lenN m = bcap x | None => bcap x = 0 end) /\
  match bb_step e x y o with
  | PDone x' y' => str_result o (content x) (content y) (content x') /\ content y' = str_other o (content x) (content y) /\
                   allowed o (content x) (content y) = true /\ cap_enough o x'
  | PThrow x' y' => content x' = str_thrown o (content x) /\ content y' = content y /\
                   (alloc_ok e = true -> allowed o (content x) (content y) = false)
  | PWrong _ => False
  end.
Proof.
  intros x y e o R HE HO. destruct (reached_ok x y R) as [HX HY].
  split.
  - destruct (L_Buffer.content_len x HX) as [C1 C2]. destruct (L_Buffer.ok_le x HX) as [C3 C4].
    split; [congruence|]. split; [lia|]. unfold bb_ok in HX. destruct (bmem x); tauto.
  - pose proof (L_Buffer.bb_step_ok e x y o HE HX HY HO) as S.
    destruct (bb_step e x y o) as [x' y'|x' y'|q]; [tauto| |exact S].
    destruct S as (S1 & S2 & S3 & S4). subst y'. auto.
Qed.

Definition ex_env : benv := mk_benv (2^64) false true (fun _ => Byte.xee).
(** with memory available an operation throws exactly if it is not allowed *)
Corollary C17_throws_only_when_illegal : forall x y e o,
  reached x y -> env_ok e -> op_ok (size_t_range e) o -> alloc_ok e = true ->
  (allowed o (content x) (content y) = true <-> exists x' y', bb_step e x y o = PDone x' y').
Proof.
  intros x y e o R HE HO HA. pose proof (proj2 (C17_buffer_is_a_string x y e o R HE HO)) as S.
  destruct (bb_step e x y o) as [x' y'|x' y'|q]; [|destruct S as (_ & _ & S)|contradiction]; split.
  - eauto.
  - tauto.
  - intros H. rewrite (S HA) in H. discriminate.
  - intros (a & b & H). discriminate.
Qed.

Fixpoint play (x y : bbuf) (os : list bop) : bpair :=
  match os with
  | [] => PDone x y
  | o :: os' => match bb_step ex_env x y o with PDone x' y' => play x' y' os' | PThrow x' y' => play x' y' os' | PWrong e => PWrong e end
  end.
Definition ex_ops : list bop :=
  [OAppendStr [Byte.x61; Byte.x62]; OFill 20 Byte.x63; OErase 2 18; OSwap; OAppend2 (Some [Byte.x64; Byte.x00]) 2;
   OAppend2 (Some [Byte.x65; Byte.x66]) 2; OAppendOther; OReserve 0; OErase 9 1].
Lemma play_reached os : forall x y x' y', reached x y -> Forall (op_ok (2^64)) os -> play x y os = PDone x' y' -> reached x' y'.
Proof.
  induction os as [|o os IH]; intros x y x' y' R F E; cbn [play] in E; [inversion E; subst; exact R|].
  inversion F; subst. destruct (bb_step ex_env x y o) as [x1 y1|x1 y1|q] eqn:ES; [| |discriminate].
  - eapply (IH x1 y1); [|eassumption..]. apply (R_done ex_env x y o); auto. right. reflexivity.
  - eapply (IH x1 y1); [|eassumption..]. apply (R_throw ex_env x y o); auto. right. reflexivity.
Qed.
(** a history that grows, cuts, shrinks and throws (the last erase is out of range) *)
Example C17_example : exists x y, reached x y /\ content x = [Byte.x64; Byte.x65; Byte.x66; Byte.x61; Byte.x62; Byte.x63; Byte.x63] /\ content y = [Byte.x61; Byte.x62; Byte.x63; Byte.x63].
Proof.
  do 2 eexists. split; [|split].
  - eapply (play_reached ex_ops detached detached); [apply R_new| |vm_compute; reflexivity].
    unfold ex_ops. repeat (apply Forall_cons; [vm_compute; repeat split; try congruence; intuition congruence|]). apply Forall_nil.
  - vm_compute. reflexivity.
  - vm_compute. reflexivity.
Qed.
Print Assumptions C17_buffer_is_a_string.
Print Assumptions C17_throws_only_when_illegal.

(** C18, the wanted statements *)
Definition C18_statement_self_assign : Prop := forall e b, env_ok e -> bb_ok b -> alloc_ok e = true ->
  exists b', bb_assign_self e b = Done b' /\ content b' = content b.
Definition C18_statement_self_append : Prop := forall e b, env_ok e -> bb_ok b -> alloc_ok e = true -> 2 * lenN (content b) <= UMAX ->
  exists b', bb_append_self e b = Done b' /\ content b' = content b ++ content b.
Definition C18_statement_append2 : Prop := forall e b t, env_ok e -> bb_ok b -> alloc_ok e = true -> lenN (content b) + lenN t < UMAX ->
  exists b', bb_append2_str e b t = Done b' /\ content b' = drop_nul (content b) ++ t ++ [x00].
Definition C18_statement_substring : Prop := forall e b pos n, env_ok e -> bb_ok b -> alloc_ok e = true ->
  pos + n <= lenN (content b) -> 0 < n ->
  exists b', bb_sub3 e b pos n = Done b' /\ content b' = takeN n (dropN pos (content b)).

(** a buffer holding "ab" NUL in a block of 4 *)
Definition ex_b : bbuf := mk_bbuf (Some [Byte.x61; Byte.x62; Byte.x00; Byte.xee]) 3 4.
Lemma ex_b_ok : bb_ok ex_b /\ content ex_b = [Byte.x61; Byte.x62; Byte.x00] /\ env_ok ex_env.
Proof. split; [vm_compute; repeat split; congruence|]. split; [reflexivity|right; reflexivity]. Qed.

(** x = x empties x *)
Theorem C18_self_assign_refuted : exists e b b', env_ok e /\ bb_ok b /\ alloc_ok e = true /\
  bb_assign_self e b = Done b' /\ content b = [Byte.x61; Byte.x62; Byte.x00] /\ content b' = [].
Proof. exists ex_env, ex_b. destruct ex_b_ok as (H1 & H2 & H3). eexists. do 3 (split; [assumption || reflexivity|]). split; [vm_compute; reflexivity|]. split; vm_compute; reflexivity. Qed.
(** x.append(x) reads the block that reserve has freed *)
Theorem C18_self_append_refuted : exists e b, env_ok e /\ bb_ok b /\ alloc_ok e = true /\ lenN (content b) = 3 /\ bb_append_self e b = Wrong UseAfterFree.
Proof. exists ex_env, ex_b. destruct ex_b_ok as (H1 & H2 & H3). do 3 (split; [assumption || reflexivity|]). split; vm_compute; reflexivity. Qed.
(** append2("c") keeps the NUL of the former content *)
Theorem C18_append2_refuted : exists e b b', env_ok e /\ bb_ok b /\ alloc_ok e = true /\ content b = [Byte.x61; Byte.x62; Byte.x00] /\
  bb_append2_str e b [Byte.x63] = Done b' /\ content b' = [Byte.x61; Byte.x62; Byte.x00; Byte.x63; Byte.x00].
Proof. exists ex_env, ex_b. destruct ex_b_ok as (H1 & H2 & H3). eexists. do 3 (split; [assumption || reflexivity|]). split; [vm_compute; reflexivity|]. split; vm_compute; reflexivity. Qed.
(** basic_buffer("ab\0", 1, 1) is not "b" but four bytes of value 1 *)
Theorem C18_substring_refuted : exists e b b', env_ok e /\ bb_ok b /\ alloc_ok e = true /\ content b = [Byte.x61; Byte.x62; Byte.x00] /\
  bb_sub3 e b 1 1 = Done b' /\ content b' = [Byte.x01; Byte.x01; Byte.x01; Byte.x01].
Proof. exists ex_env, ex_b. destruct ex_b_ok as (H1 & H2 & H3). eexists. do 3 (split; [assumption || reflexivity|]). split; [vm_compute; reflexivity|]. split; vm_compute; reflexivity. Qed.

(** what is left of the substring: from the end on (or behind it) there is nothing *)
Theorem C18_substring_partial : forall e b pos n, bb_ok b -> lenN (content b) <= pos -> exists b', bb_sub3 e b pos n = Done b' /\ content b' = [].
Proof.
  intros e b pos n K L. unfold bb_sub3. assert (S : bb_size b = lenN (content b)) by (destruct (L_Buffer.content_len b K) as (S1 & S2); congruence). rewrite S.
  destruct (N.ltb_spec pos (lenN (content b))) as [X|X]; [lia|]. exists detached. split; reflexivity.
Qed.
Print Assumptions C18_substring_partial.
Example C18_substring_partial_example : bb_ok ex_b /\ lenN (content ex_b) = 3 /\ bb_sub3 ex_env ex_b 3 1 = Done detached.
Proof. split; [exact (proj1 ex_b_ok)|]. split; vm_compute; reflexivity. Qed.

Corollary C18_statements_refuted :
  ~ C18_statement_self_assign /\ ~ C18_statement_self_append /\ ~ C18_statement_append2 /\ ~ C18_statement_substring.
Proof.
  destruct ex_b_ok as (H1 & H2 & H3). split; [|split; [|split]]; intros H.
  - destruct (H ex_env ex_b H3 H1 eq_refl) as (b' & E & C). vm_compute in E. inversion E; subst b'. vm_compute in C. discriminate.
  - destruct (H ex_env ex_b H3 H1 eq_refl) as (b' & E & C); [vm_compute; congruence|]. vm_compute in E. discriminate.
  - destruct (H ex_env ex_b [Byte.x63] H3 H1 eq_refl) as (b' & E & C); [vm_compute; congruence|]. vm_compute in E. inversion E; subst b'. vm_compute in C. discriminate.
  - destruct (H ex_env ex_b 1 1 H3 H1 eq_refl) as (b' & E & C); [vm_compute; congruence|reflexivity|]. vm_compute in E. inversion E; subst b'. vm_compute in C. discriminate.
Qed.

(** What holds: appending a buffer to itself doubles it as long as it need not grow. *)
Theorem C18_self_append_partial : forall e b,
  env_ok e -> bb_ok b -> 2 * lenN (content b) <= bcap b ->
  exists b', bb_append_self e b = Done b' /\ content b' = content b ++ content b.
Proof.
  intros e b HE HB HL. destruct (L_Buffer.content_len b HB) as [C1 C2]. destruct (L_Buffer.ok_le b HB) as [C3 C4].
  pose proof (L_Buffer.env_range e HE) as HW. unfold bb_append_self.
  destruct (bmem b) as [m|] eqn:EM; [|exists b; split; [reflexivity|unfold content; rewrite EM; reflexivity]].
  rewrite C2. destruct (N.eqb_spec (bsize b) 0) as [E0|E0].
  { exists b. split; [reflexivity|]. assert (E : content b = []) by (apply L_Bytes.lenN_0; lia). rewrite E. reflexivity. }
  unfold too_long. destruct (N.ltb_spec UMAX (bsize b)); [lia|]. destruct (N.ltb_spec (UMAX - bsize b) (bsize b)); [lia|]. cbn [orb].
  rewrite N.mod_small by lia. destruct (N.ltb_spec (bcap b) (bsize b + bsize b)); [lia|].
  assert (LM : lenN m = bcap b) by (unfold bb_ok in HB; rewrite EM in HB; tauto).
  rewrite L_Bytes.fetch_ok by lia. rewrite L_Bytes.dropN_0.
  destruct (L_Buffer.put_ok b (takeN (bsize b) m) HB) as (b' & E & _ & P2); [congruence|rewrite L_Bytes.lenN_takeN; lia|].
  exists b'. split; [exact E|]. rewrite P2. f_equal. unfold content. rewrite EM. reflexivity.
Qed.
Example C18_example : let b := mk_bbuf (Some [Byte.x61; Byte.x62; Byte.x00; Byte.xee]) 2 4 in
  bb_ok b /\ 2 * lenN (content b) <= bcap b /\ env_ok ex_env.
Proof. cbv zeta. split; [vm_compute; repeat split; congruence|]. split; [vm_compute; congruence|right; reflexivity]. Qed.
Print Assumptions C18_self_assign_refuted.
Print Assumptions C18_self_append_refuted.
Print Assumptions C18_append2_refuted.
Print Assumptions C18_substring_refuted.
Print Assumptions C18_statements_refuted.
Print Assumptions C18_self_append_partial.
