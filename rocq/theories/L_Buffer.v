(** Proofs about basic_buffer. *)
From Coq Require Import List NArith Bool Lia ZifyBool ZifyNat ZifyN.
From Verif Require Import M_Bytes M_Flex M_Buffer S_Buffer L_Bytes.
From Verif Require L_NonCopy.
Import ListNotations.
Open Scope N_scope.

Definition env_ok (e : benv) : Prop := size_t_range e = 2^32 \/ size_t_range e = 2^64.
Lemma env_range e : env_ok e -> UMAX < size_t_range e.
Proof. intros [-> | ->]; vm_compute; reflexivity. Qed.

Lemma land_mask x : x <= UMAX -> N.land x 4294967280 = x / 16 * 16.
Proof.
  intros H. unfold UMAX in H.
  replace 4294967280 with (N.lnot (N.ones 4) 32) by (vm_compute; reflexivity).
  rewrite <- N.ldiff_land_low.
  - rewrite N.ldiff_ones_r, N.shiftl_mul_pow2, N.shiftr_div_pow2. reflexivity.
  - destruct (N.eq_dec x 0) as [->|Hx]; [vm_compute; reflexivity|]. apply N.log2_lt_pow2; lia.
Qed.

Lemma content_len b : bb_ok b -> lenN (content b) = bsize b /\ bb_size b = bsize b.
Proof.
  unfold bb_ok, content, bb_size. destruct (bmem b) as [m|].
  - intros (H1 & H2 & H3 & H4). rewrite lenN_takeN. split; [lia|reflexivity].
  - intros [H1 H2]. rewrite lenN_nil. split; congruence.
Qed.
Lemma ok_le b : bb_ok b -> bsize b <= bcap b /\ bcap b <= UMAX.
Proof. unfold bb_ok, UMAX. destruct (bmem b); lia. Qed.

Lemma realloc_len e m n : lenN (realloc e m n) = n.
Proof. unfold realloc. rewrite lenN_app, L_NonCopy.lenN_garbage, lenN_takeN. lia. Qed.
Lemma realloc_take e l k n : k <= lenN l -> k <= n -> takeN k (realloc e (Some l) n) = takeN k l.
Proof.
  intros H1 H2. unfold realloc. rewrite takeN_app_le by (rewrite lenN_takeN; lia). apply takeN_takeN_le. assumption.
Qed.

Lemma reserve_ok e b n : env_ok e -> bb_ok b ->
  match bb_reserve e b n with
  | Done b' => bb_ok b' /\ content b' = content b /\ bsize b' = bsize b /\ n <= bcap b' /\ n <= UMAX /\ bmem b' <> None
  | Throw b' => b' = b /\ (alloc_ok e = true -> UMAX < n)
  | Wrong _ => False
  end.
Proof.
  intros HE HB. pose proof (env_range e HE) as HW. destruct (ok_le b HB) as [L1 L2].
  unfold bb_reserve. destruct (N.ltb_spec UMAX n) as [Hn|Hn]; [auto|].
  set (c0 := if n <? bsize b then bsize b else if n =? 0 then 16 else n).
  assert (C0 : n <= c0 /\ bsize b <= c0 /\ c0 <= UMAX /\ 0 < c0).
  { unfold c0. unfold UMAX in *. destruct (N.ltb_spec n (bsize b)); [lia|]. destruct (N.eqb_spec n 0); lia. }
  clearbody c0. destruct C0 as (C01 & C02 & C03 & C04).
  assert (NN : bcap b <> 0 -> bmem b <> None).
  { unfold bb_ok in HB. destruct (bmem b); [congruence|]. intuition congruence. }
  destruct (N.eqb_spec c0 (bcap b)) as [E0|E0].
  { repeat split; auto; try lia. apply NN. lia. }
  set (c1 := if (bcap b <? c0) && (c0 <? grown e (bcap b)) then N.min (grown e (bcap b)) UMAX else c0).
  assert (C1 : c0 <= c1 /\ c1 <= UMAX).
  { unfold c1. destruct (N.ltb_spec (bcap b) c0); cbn [andb]; [|lia]. destruct (N.ltb_spec c0 (grown e (bcap b))); lia. }
  clearbody c1. destruct C1 as (C11 & C12). cbv zeta.
  rewrite land_mask by assumption.
  pose proof (N.div_mod c1 16 ltac:(lia)) as DM. pose proof (N.mod_upper_bound c1 16 ltac:(lia)) as MB.
  set (q := c1 / 16) in *.
  set (nc := if q * 16 <? c1 then let n0 := (q * 16 + 16) mod size_t_range e in if (n0 <? c1) || (UMAX <? n0) then UMAX else n0 else q * 16).
  assert (NC : c1 <= nc /\ nc <= UMAX).
  { unfold nc. destruct (N.ltb_spec (q * 16) c1).
    - cbv zeta. destruct (N.ltb_spec ((q * 16 + 16) mod size_t_range e) c1); cbn [orb]; [lia|].
      destruct (N.ltb_spec UMAX ((q * 16 + 16) mod size_t_range e)); lia.
    - lia. }
  clearbody nc. destruct NC as (NC1 & NC2).
  destruct (N.eqb_spec nc (bcap b)) as [E1|E1].
  { repeat split; auto; try lia. apply NN. lia. }
  destruct (alloc_ok e); cbn [negb]; [|split; [reflexivity|discriminate]].
  rewrite N.mod_small by lia.
  split; [|split; [|split; [|split; [|split]]]]; cbn [bmem bsize bcap]; try lia; try congruence.
  - unfold bb_ok; cbn [bmem bsize bcap]. rewrite realloc_len. lia.
  - unfold content; cbn [bmem bsize bcap]. unfold bb_ok in HB. destruct (bmem b) as [m|].
    + apply realloc_take; lia.
    + destruct HB as [HB1 HB2]. rewrite HB1. apply takeN_0.
Qed.

Lemma content_full b m : bmem b = Some m -> content b = takeN (bsize b) m.
Proof. unfold content. intros ->. reflexivity. Qed.

Lemma resize_ok e b n : env_ok e -> bb_ok b ->
  match bb_resize e b n with
  | Done b' => bb_ok b' /\ lenN (content b') = n /\ takeN (bsize b) (content b') = takeN n (content b) /\ n <= UMAX /\
               (n <= bsize b -> content b' = takeN n (content b))
  | Throw b' => b' = b /\ (alloc_ok e = true -> UMAX < n)
  | Wrong _ => False
  end.
Proof.
  intros HE HB. unfold bb_resize. destruct (ok_le b HB) as [L1 L2].
  assert (G : forall b1, bb_ok b1 -> content b1 = content b -> bsize b1 = bsize b -> n <= bcap b1 ->
    let b' := mk_bbuf (bmem b1) (n mod (UMAX + 1)) (bcap b1) in
    bb_ok b' /\ lenN (content b') = n /\ takeN (bsize b) (content b') = takeN n (content b) /\ n <= UMAX /\
               (n <= bsize b -> content b' = takeN n (content b))).
  { intros b1 H1 H2 H3 H4. destruct (ok_le b1 H1) as [L3 L4]. rewrite N.mod_small by lia.
    rewrite <- H2. unfold bb_ok, content in *; cbn [bmem bsize bcap]. destruct (bmem b1) as [m|].
    - rewrite lenN_takeN, !takeN_takeN. repeat split; try lia.
      + f_equal. lia.
      + intros. f_equal. lia.
    - destruct H1 as [H5 H6]. assert (n = 0) by lia. subst n. unfold UMAX. repeat split; try lia.
      unfold takeN. rewrite firstn_nil. reflexivity. }
  destruct (N.ltb_spec (bcap b) n).
  - pose proof (reserve_ok e b n HE HB) as R. destruct (bb_reserve e b n) as [b1|b1|x]; cbn [bthen].
    + destruct R as (R1 & R2 & R3 & R4 & R5 & R6). apply (G b1); assumption.
    + exact R.
    + exact R.
  - cbn [bthen]. apply (G b); auto.
Qed.

Lemma put_ok b bytes : bb_ok b -> bmem b <> None -> bsize b + lenN bytes <= bcap b ->
  exists b', bb_put b bytes = Done b' /\ bb_ok b' /\ content b' = content b ++ bytes.
Proof.
  intros HB HN HL. destruct (ok_le b HB) as [L1 L2]. unfold bb_put, bb_ok, content in *. destruct (bmem b) as [m|]; [|congruence].
  destruct HB as (H1 & H2 & H3 & H4).
  rewrite blit_ok by lia. eexists. split; [reflexivity|]. cbn [bmem bsize bcap]. rewrite N.mod_small by lia. split.
  - rewrite !lenN_app, lenN_takeN, lenN_dropN. lia.
  - rewrite app_assoc. apply app_take_eq. rewrite lenN_app, lenN_takeN. lia.
Qed.

(** the common part of the append functions *)
Lemma grow_put e b n bytes : env_ok e -> bb_ok b -> 0 < n -> lenN bytes = n ->
  match (if too_long b n then Throw b
         else bthen (if bcap b <? (bsize b + n) mod size_t_range e then bb_reserve e b ((bsize b + n) mod size_t_range e) else Done b)
                    (fun b => bb_put b bytes)) with
  | Done b' => bb_ok b' /\ content b' = content b ++ bytes /\ bsize b + n <= UMAX
  | Throw b' => b' = b /\ (alloc_ok e = true -> UMAX < bsize b + n)
  | Wrong _ => False
  end.
Proof.
  intros HE HB Hn HL. destruct (ok_le b HB) as [L1 L2]. pose proof (env_range e HE) as HW.
  unfold too_long. destruct (N.ltb_spec UMAX n); cbn [orb]; [split; [reflexivity|lia]|].
  destruct (N.ltb_spec (UMAX - n) (bsize b)); [split; [reflexivity|lia]|].
  rewrite N.mod_small by lia. destruct (N.ltb_spec (bcap b) (bsize b + n)).
  - pose proof (reserve_ok e b (bsize b + n) HE HB) as R. destruct (bb_reserve e b (bsize b + n)) as [b1|b1|x]; cbn [bthen].
    + destruct R as (R1 & R2 & R3 & R4 & R5 & R6). destruct (put_ok b1 bytes R1 R6) as (b' & E & P1 & P2); [lia|].
      rewrite E. split; [assumption|]. split; [congruence|lia].
    + exact R.
    + exact R.
  - cbn [bthen]. assert (HN : bmem b <> None) by (unfold bb_ok in HB; destruct (bmem b); [congruence|lia]).
    destruct (put_ok b bytes HB HN) as (b' & E & P1 & P2); [lia|]. rewrite E. split; [assumption|]. split; [assumption|lia].
Qed.

Lemma append_ok e b p n : env_ok e -> bb_ok b -> match p with Some m => n <= lenN m | None => True end ->
  match bb_append e b p n with
  | Done b' => bb_ok b' /\ content b' = content b ++ at_ptr p n /\ match p with Some _ => n = 0 \/ bsize b + n <= UMAX | None => True end
  | Throw b' => b' = b /\ (alloc_ok e = true -> n <> 0 /\ p <> None /\ UMAX < bsize b + n)
  | Wrong _ => False
  end.
Proof.
  intros HE HB HP. unfold bb_append. destruct p as [m|]; cbn [at_ptr]; [|rewrite app_nil_r; auto].
  destruct (N.eqb_spec n 0) as [->|Hn]; [rewrite takeN_0, app_nil_r; auto|].
  pose proof (grow_put e b n (takeN n m) HE HB ltac:(lia) ltac:(rewrite lenN_takeN; lia)) as G.
  rewrite fetch_ok by lia. rewrite dropN_0.
  destruct (too_long b n); [destruct G as [G1 G2]; split; [assumption|intros HA; specialize (G2 HA); repeat split; [assumption|congruence|lia]]|].
  cbv zeta. destruct (bthen _ _) as [b'|b'|x]; [destruct G as (G1 & G2 & G3); auto|destruct G as [G1 G2]; split; [assumption|intros HA; specialize (G2 HA); repeat split; [assumption|congruence|lia]]|exact G].
Qed.

Lemma fill_ok e b n c : env_ok e -> bb_ok b ->
  match bb_fill e b n c with
  | Done b' => bb_ok b' /\ content b' = content b ++ repeat c (N.to_nat n) /\ bsize b + n <= UMAX
  | Throw b' => b' = b /\ (alloc_ok e = true -> UMAX < bsize b + n)
  | Wrong _ => False
  end.
Proof.
  intros HE HB. destruct (ok_le b HB) as [L1 L2]. unfold bb_fill. destruct (N.eqb_spec n 0) as [->|Hn].
  - cbn [N.to_nat repeat]. rewrite app_nil_r. repeat split; auto. lia.
  - apply grow_put; auto; [lia|]. unfold lenN. rewrite repeat_length. lia.
Qed.

Lemma drop_nul_snoc s b : drop_nul (s ++ [b]) = if byte_eqb b x00 then s else s ++ [b].
Proof. unfold drop_nul. rewrite rev_app_distr. cbn [rev app]. destruct (byte_eqb b x00); [apply rev_involutive|reflexivity]. Qed.

Lemma split_last (s : list byte) : 0 < lenN s -> exists t b, s = t ++ [b] /\ dropN (lenN s - 1) s = [b] /\ takeN (lenN s - 1) s = t.
Proof.
  intros H. destruct (@exists_last _ s) as (t & b & ->); [intros ->; change (lenN (@nil byte)) with 0 in H; lia|].
  exists t, b. rewrite lenN_app. change (lenN [b]) with 1. replace (lenN t + 1 - 1) with (lenN t) by lia.
  repeat split; [apply app_drop_eq|apply app_take_eq]; reflexivity.
Qed.

Lemma append2_ok e b p n : env_ok e -> bb_ok b -> match p with Some m => n <= lenN m | None => True end ->
  match bb_append2 e b p n with
  | Done b' => bb_ok b' /\ content b' = drop_nul (content b) ++ at_ptr p n /\ match p with Some _ => n = 0 \/ lenN (drop_nul (content b)) + n <= UMAX | None => True end
  | Throw b' => bb_ok b' /\ content b' = drop_nul (content b) /\ (alloc_ok e = true -> n <> 0 /\ p <> None /\ UMAX < lenN (drop_nul (content b)) + n)
  | Wrong _ => False
  end.
Proof.
  intros HE HB HP. destruct (content_len b HB) as [CL _]. destruct (ok_le b HB) as [L1 L2]. unfold bb_append2.
  destruct (N.ltb_spec 0 (bsize b)) as [H0|H0].
  2:{ assert (E : content b = []) by (apply lenN_0; lia). assert (ED : drop_nul [] = []) by reflexivity. rewrite E, ED.
      pose proof (append_ok e b p n HE HB HP) as A. rewrite E in A. change (lenN (@nil byte)) with 0.
      destruct (bb_append e b p n) as [b'|b'|x]; [| |exact A].
      - assert (EZ : bsize b = 0) by lia. rewrite EZ in A. exact A.
      - destruct A as [A1 A2]. subst b'. assert (EZ : bsize b = 0) by lia. rewrite EZ in A2. repeat split; assumption || apply A2; assumption. }
  destruct (split_last (content b) ltac:(lia)) as (t & lb & ES & ED & ET). rewrite CL in ED, ET.
  assert (EM : exists m, bmem b = Some m /\ content b = takeN (bsize b) m /\ lenN m = bcap b).
  { unfold bb_ok, content in *. destruct (bmem b) as [m|]; [eexists; repeat split; tauto|lia]. }
  destruct EM as (m & EM1 & EM2 & EM3). rewrite EM1.
  rewrite fetch_ok by lia.
  assert (EB : takeN 1 (dropN (bsize b - 1) m) = [lb]).
  { rewrite <- ED, EM2, dropN_takeN. f_equal. lia. }
  rewrite EB. rewrite ES, drop_nul_snoc. destruct (byte_eqb lb x00) eqn:EZ.
  - pose proof (resize_ok e b (bsize b - 1) HE HB) as R.
    assert (RD : exists b1, bb_resize e b (bsize b - 1) = Done b1).
    { unfold bb_resize. destruct (N.ltb_spec (bcap b) (bsize b - 1)); [lia|]. eexists. reflexivity. }
    destruct RD as [b1 RD]. rewrite RD in R |- *. cbn [bthen]. destruct R as (R1 & R2 & _ & _ & R5).
    specialize (R5 ltac:(lia)). rewrite ET in R5. destruct (content_len b1 R1) as [CL1 _].
    pose proof (append_ok e b1 p n HE R1 HP) as A. rewrite R5 in A.
    destruct (bb_append e b1 p n) as [b'|b'|x]; [| |exact A].
    + assert (EL : bsize b1 = lenN t) by congruence. rewrite EL in A. exact A.
    + destruct A as [A1 A2]. subst b'. assert (EL : bsize b1 = lenN t) by congruence. rewrite EL in A2. repeat split; assumption || apply A2; assumption.
  - cbn [bthen]. pose proof (append_ok e b p n HE HB HP) as A. rewrite ES in A.
    assert (EL : bsize b = lenN (t ++ [lb])) by congruence. rewrite EL in A.
    destruct (bb_append e b p n) as [b'|b'|x]; [exact A| |exact A].
    destruct A as [A1 A2]. subst b'. repeat split; assumption || apply A2; assumption.
Qed.

Lemma erase_ok e b pos n : env_ok e -> bb_ok b ->
  match bb_erase e b pos n with
  | Done b' => bb_ok b' /\ content b' = takeN pos (content b) ++ dropN (pos + n) (content b) /\ pos <= bsize b
  | Throw b' => b' = b /\ bsize b < pos
  | Wrong _ => False
  end.
Proof.
  intros HE HB. destruct (content_len b HB) as [CL CS]. destruct (ok_le b HB) as [L1 L2]. unfold bb_erase. rewrite CS.
  destruct (N.ltb_spec (bsize b) pos) as [H0|H0]; [auto|].
  assert (G : forall k, pos <= bsize b -> bsize b <= pos + k ->
    match bb_resize e b pos with
    | Done b' => bb_ok b' /\ content b' = takeN pos (content b) ++ dropN (pos + k) (content b) /\ pos <= bsize b
    | Throw b' => b' = b /\ bsize b < pos
    | Wrong _ => False
    end).
  { intros k H1 H2. pose proof (resize_ok e b pos HE HB) as R.
    assert (RD : exists b1, bb_resize e b pos = Done b1).
    { unfold bb_resize. destruct (N.ltb_spec (bcap b) pos); [lia|]. eexists. reflexivity. }
    destruct RD as [b1 RD]. rewrite RD in R |- *. destruct R as (R1 & R2 & _ & _ & R5). split; [assumption|]. split; [|assumption].
    rewrite (R5 H1). rewrite (dropN_all (pos + k)) by lia. rewrite app_nil_r. reflexivity. }
  destruct (N.leb_spec (bsize b) n); [apply G; lia|].
  destruct (N.leb_spec (bsize b - n) pos); [apply G; lia|].
  assert (EM : exists m, bmem b = Some m /\ content b = takeN (bsize b) m /\ lenN m = bcap b /\ 0 < bcap b).
  { unfold bb_ok, content in *. destruct (bmem b) as [m|]; [eexists; repeat split; tauto|lia]. }
  destruct EM as (m & EM1 & EM2 & EM3 & EM4). rewrite EM1. rewrite fetch_ok by lia.
  set (tail := takeN (bsize b - pos - n) (dropN (pos + n) m)).
  assert (LT : lenN tail = bsize b - pos - n) by (unfold tail; rewrite lenN_takeN, lenN_dropN; lia).
  rewrite blit_ok by lia. set (m' := takeN pos m ++ tail ++ dropN (pos + lenN tail) m).
  assert (LM : lenN m' = bcap b) by (unfold m'; rewrite !lenN_app, lenN_takeN, lenN_dropN; lia).
  assert (HB1 : bb_ok (mk_bbuf (Some m') (bsize b) (bcap b))) by (unfold bb_ok; cbn [bmem bsize bcap]; lia).
  pose proof (resize_ok e _ (bsize b - n) HE HB1) as R.
  assert (RD : exists b1, bb_resize e (mk_bbuf (Some m') (bsize b) (bcap b)) (bsize b - n) = Done b1).
  { unfold bb_resize. cbn [bcap bmem]. destruct (N.ltb_spec (bcap b) (bsize b - n)); [lia|]. eexists. reflexivity. }
  destruct RD as [b1 RD]. rewrite RD in R |- *. destruct R as (R1 & R2 & _ & _ & R5). split; [assumption|]. split; [|assumption].
  rewrite R5 by (cbn [bsize]; lia). unfold content at 1. cbn [bmem bsize]. rewrite takeN_takeN_le by lia.
  unfold m'. rewrite app_assoc. rewrite app_take_eq by (rewrite lenN_app, lenN_takeN; lia).
  rewrite EM2. rewrite takeN_takeN_le by lia. f_equal. unfold tail. rewrite dropN_takeN. f_equal. lia.
Qed.

Lemma detached_ok : bb_ok detached.
Proof. split; reflexivity. Qed.

Lemma at_other y : bb_ok y -> at_ptr (bmem y) (bb_size y) = content y.
Proof. intros H. unfold at_ptr, content, bb_size. destruct (bmem y); reflexivity. Qed.
Lemma other_ptr y : bb_ok y -> match bmem y with Some m => bb_size y <= lenN m | None => True end.
Proof. unfold bb_ok, bb_size. destruct (bmem y); [lia|auto]. Qed.

Lemma app_other_ok e x y : env_ok e -> bb_ok x -> bb_ok y ->
  match bb_append_other e x y with
  | Done b' => bb_ok b' /\ content b' = content x ++ content y /\ bsize x + lenN (content y) <= UMAX
  | Throw b' => b' = x /\ (alloc_ok e = true -> UMAX < bsize x + lenN (content y))
  | Wrong _ => False
  end.
Proof.
  intros HE HX HY. unfold bb_append_other. destruct (content_len y HY) as [CY SY]. destruct (ok_le x HX) as [L1 L2].
  pose proof (append_ok e x (bmem y) (bb_size y) HE HX (other_ptr y HY)) as A. rewrite at_other in A by assumption.
  destruct (bb_append e x (bmem y) (bb_size y)) as [b'|b'|q]; [| |exact A].
  - destruct A as (A1 & A2 & A3). repeat split; auto. unfold bb_ok in HY. destruct (bmem y); lia.
  - destruct A as (A1 & A2). split; [assumption|]. intros HA. destruct (A2 HA) as (A3 & A4 & A5). lia.
Qed.

Lemma resize0 e x : env_ok e -> bb_ok x -> exists x1, bb_resize e x 0 = Done x1 /\ bb_ok x1 /\ content x1 = [].
Proof.
  intros HE HX. pose proof (resize_ok e x 0 HE HX) as R.
  assert (RD : exists b1, bb_resize e x 0 = Done b1).
  { unfold bb_resize. destruct (N.ltb_spec (bcap x) 0); [lia|]. eexists. reflexivity. }
  destruct RD as [b1 RD]. rewrite RD in R. exists b1. destruct R as (R1 & R2 & _). repeat split; auto. apply lenN_0. assumption.
Qed.

Lemma bb_step_ok e x y o : env_ok e -> bb_ok x -> bb_ok y -> op_ok (size_t_range e) o ->
  match bb_step e x y o with
  | PDone x' y' => bb_ok x' /\ bb_ok y' /\ str_result o (content x) (content y) (content x') /\
                   content y' = str_other o (content x) (content y) /\ allowed o (content x) (content y) = true /\ cap_enough o x'
  | PThrow x' y' => bb_ok x' /\ y' = y /\ content x' = str_thrown o (content x) /\
                   (alloc_ok e = true -> allowed o (content x) (content y) = false)
  | PWrong _ => False
  end.
Proof.
  intros HE HX HY HO. destruct (content_len x HX) as [CX SX]. destruct (content_len y HY) as [CY SY].
  destruct (ok_le x HX) as [LX1 LX2]. destruct (ok_le y HY) as [LY1 LY2].
  unfold allowed.
  destruct o as [p n|t|n c|p n|pos n|n|p n|n| | | | |pos|]; cbn [bb_step str_result str_other str_thrown wanted op_ok cap_enough] in *.
  - assert (HP : match p with Some m => n <= lenN m | None => True end) by (destruct p; tauto).
    pose proof (append_ok e x p n HE HX HP) as A. destruct (bb_append e x p n) as [b|b|q]; cbn [lift_out]; [| |exact A].
    + destruct A as (A1 & A2 & A3). split; [assumption|]. split; [assumption|]. split; [assumption|]. split; [reflexivity|]. split; [|exact I].
      destruct p; [destruct (N.eqb_spec n 0); unfold UMAX in *; lia|reflexivity].
    + destruct A as (A1 & A2). subst b. repeat split; auto. intros HA. destruct (A2 HA) as (A3 & A4 & A5). destruct p; [|congruence].
      destruct (N.eqb_spec n 0); unfold UMAX in *; lia.
  - assert (HP : lenN t <= lenN (c_str t)) by (unfold c_str; rewrite lenN_app; lia).
    pose proof (append_ok e x (Some (c_str t)) (lenN t) HE HX HP) as A. destruct (bb_append e x _ _) as [b|b|q]; cbn [lift_out]; [| |exact A].
    + destruct A as (A1 & A2 & A3). cbn [at_ptr] in A2. unfold c_str in A2. rewrite app_take_eq in A2 by reflexivity.
      repeat split; auto. unfold UMAX in *. destruct A3; lia.
    + destruct A as (A1 & A2). subst b. repeat split; auto. intros HA. destruct (A2 HA) as (A3 & A4 & A5). unfold UMAX in *. lia.
  - pose proof (fill_ok e x n c HE HX) as A. destruct (bb_fill e x n c) as [b|b|q]; cbn [lift_out]; [| |exact A].
    + destruct A as (A1 & A2 & A3). repeat split; auto. lia.
    + destruct A as (A1 & A2). subst b. repeat split; auto. intros HA. specialize (A2 HA). lia.
  - assert (HP : match p with Some m => n <= lenN m | None => True end) by (destruct p; tauto).
    pose proof (append2_ok e x p n HE HX HP) as A. destruct (bb_append2 e x p n) as [b|b|q]; cbn [lift_out]; [| |exact A].
    + destruct A as (A1 & A2 & A3). split; [assumption|]. split; [assumption|]. split; [assumption|]. split; [reflexivity|]. split; [|exact I].
      destruct p; [destruct (N.eqb_spec n 0); unfold UMAX in *; lia|reflexivity].
    + destruct A as (A1 & A2 & A3). repeat split; auto. intros HA. destruct (A3 HA) as (A4 & A5 & A6). destruct p; [|congruence].
      destruct (N.eqb_spec n 0); unfold UMAX in *; lia.
  - pose proof (erase_ok e x pos n HE HX) as A. destruct (bb_erase e x pos n) as [b|b|q]; cbn [lift_out]; [| |exact A].
    + destruct A as (A1 & A2 & A3). repeat split; auto. unfold UMAX in *. lia.
    + destruct A as (A1 & A2). subst b. repeat split; auto. lia.
  - pose proof (resize_ok e x n HE HX) as A. destruct (bb_resize e x n) as [b|b|q]; cbn [lift_out]; [| |exact A].
    + destruct A as (A1 & A2 & A3 & A4 & _). rewrite CX. repeat split; auto. lia.
    + destruct A as (A1 & A2). subst b. repeat split; auto. intros HA. specialize (A2 HA). lia.
  - assert (HP : match p with Some m => n <= lenN m | None => True end) by (destruct p; tauto).
    unfold bb_assign. destruct (resize0 e x HE HX) as (x1 & E1 & X1 & X2). rewrite E1. cbn [bthen].
    destruct (content_len x1 X1) as [CX1 _]. rewrite X2 in CX1. change (lenN (@nil byte)) with 0 in CX1.
    pose proof (append_ok e x1 p n HE X1 HP) as A. rewrite X2 in A. destruct (bb_append e x1 p n) as [b|b|q]; cbn [lift_out]; [| |exact A].
    + destruct A as (A1 & A2 & A3). split; [assumption|]. split; [assumption|]. split; [assumption|]. split; [reflexivity|]. split; [|exact I].
      destruct p; unfold UMAX in *; lia.
    + destruct A as (A1 & A2). subst b. repeat split; auto. intros HA. destruct (A2 HA) as (A3 & A4 & A5). destruct p; [|congruence]. unfold UMAX in *. lia.
  - pose proof (reserve_ok e x n HE HX) as A. destruct (bb_reserve e x n) as [b|b|q]; cbn [lift_out]; [| |exact A].
    + destruct A as (A1 & A2 & A3 & A4 & A5 & _). repeat split; auto. lia.
    + destruct A as (A1 & A2). subst b. repeat split; auto. intros HA. specialize (A2 HA). lia.
  - repeat split; auto.
  - pose proof (app_other_ok e x y HE HX HY) as A. destruct (bb_append_other e x y) as [b|b|q]; cbn [lift_out]; [| |exact A].
    + destruct A as (A1 & A2 & A3). repeat split; auto. lia.
    + destruct A as (A1 & A2). subst b. repeat split; auto. intros HA. specialize (A2 HA). lia.
  - destruct (resize0 e x HE HX) as (x1 & E1 & X1 & X2). rewrite E1. cbn [bthen].
    destruct (content_len x1 X1) as [CX1 _]. rewrite X2 in CX1. change (lenN (@nil byte)) with 0 in CX1.
    pose proof (app_other_ok e x1 y HE X1 HY) as A. rewrite X2 in A. destruct (bb_append_other e x1 y) as [b|b|q]; cbn [lift_out]; [| |exact A].
    + destruct A as (A1 & A2 & A3). repeat split; auto.
    + destruct A as (A1 & A2). subst b. repeat split; auto. intros HA. specialize (A2 HA). lia.
  - pose proof (app_other_ok e detached y HE detached_ok HY) as A. destruct (bb_append_other e detached y) as [b|b|q]; cbn [lift_out]; [| |exact A].
    + destruct A as (A1 & A2 & A3). repeat split; auto.
    + destruct A as (A1 & A2). subst b. repeat split; auto. intros HA. specialize (A2 HA). cbn [detached bsize] in A2. lia.
  - rewrite SY. destruct (N.ltb_spec pos (bsize y)) as [Hp|Hp].
    2:{ repeat split; auto. symmetry. apply dropN_all. lia. }
    assert (EM : exists m, bmem y = Some m /\ content y = takeN (bsize y) m /\ lenN m = bcap y).
    { unfold bb_ok, content in *. destruct (bmem y) as [m|]; [eexists; repeat split; tauto|lia]. }
    destruct EM as (m & EM1 & EM2 & EM3). rewrite EM1.
    assert (HP : bsize y - pos <= lenN (dropN pos m)) by (rewrite lenN_dropN; lia).
    pose proof (append_ok e detached (Some (dropN pos m)) (bsize y - pos) HE detached_ok HP) as A.
    destruct (bb_append e detached _ _) as [b|b|q]; cbn [lift_out]; [| |exact A].
    + destruct A as (A1 & A2 & A3). repeat split; auto. rewrite A2. cbn [at_ptr content detached bmem app]. rewrite EM2, dropN_takeN. reflexivity.
    + destruct A as (A1 & A2). subst b. repeat split; auto. intros HA. destruct (A2 HA) as (_ & _ & A5). cbn [detached bsize] in A5. lia.
  - repeat split; auto.
Qed.
