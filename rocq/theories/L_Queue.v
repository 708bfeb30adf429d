(** Proofs about message queues. *)
From Coq Require Import List NArith Bool Lia ZifyBool ZifyNat ZifyN.
From Verif Require Import M_Bytes M_Queue S_Queue L_Bytes.
Import ListNotations.
Open Scope N_scope.

Lemma total_app a b : total (a ++ b) = total a + total b.
Proof. induction a as [|m a IH]; cbn [app total]; lia. Qed.

Lemma bytes_of_gen W : 0 < W -> forall l acc, acc < W ->
  fold_left (fun acc (i : list byte) => (acc + lenN i) mod W) l acc = (acc + total l) mod W.
Proof.
  intros HW. induction l as [|i l IH]; intros acc Ha; cbn [fold_left total].
  - rewrite N.add_0_r, N.mod_small by assumption. reflexivity.
  - rewrite IH by (apply N.mod_upper_bound; lia). rewrite N.add_mod_idemp_l by lia. f_equal. lia.
Qed.
Lemma bytes_of_ok W l : 0 < W -> bytes_of W l = total l mod W.
Proof. intros HW. unfold bytes_of. rewrite bytes_of_gen by lia. reflexivity. Qed.

Lemma subW_ok W a b : 0 < W -> subW W ((a + b) mod W) (b mod W) = a mod W.
Proof.
  intros HW. unfold subW. rewrite N.mod_mod by lia. rewrite N.add_mod_idemp_l by lia.
  pose proof (N.mod_upper_bound b W ltac:(lia)). pose proof (N.div_mod b W ltac:(lia)) as D.
  replace (a + b + (W - b mod W)) with (a + (b / W + 1) * W) by lia. apply N.mod_add. lia.
Qed.
Lemma subW_ok' W a b : 0 < W -> subW W ((a + b) mod W) b = a mod W.
Proof.
  intros HW. rewrite <- (subW_ok W a b HW). unfold subW. rewrite N.mod_mod by lia. reflexivity.
Qed.

Lemma take_num_ok W : 0 < W -> forall l size index maxn a s b, size < W -> take_num W size index maxn l = (a, s, b) ->
  a ++ b = l /\ lenN a = N.min (maxn - index) (lenN l) /\ s = (size + total a) mod W.
Proof.
  intros HW. induction l as [|m l IH]; intros size index maxn a s b Hs E; cbn [take_num] in E.
  - inversion E; subst. cbn [total]. rewrite N.add_0_r, N.mod_small by assumption. change (lenN (@nil (list byte))) with 0. repeat split. lia.
  - destruct (N.ltb_spec index maxn).
    + destruct (take_num W ((size + lenN m) mod W) (index + 1) maxn l) as [[a1 s1] b1] eqn:E1.
      assert (a = m :: a1 /\ s = s1 /\ b = b1) as (-> & -> & ->) by (repeat split; congruence).
      destruct (IH _ _ _ _ _ _ (N.mod_upper_bound _ W ltac:(lia)) E1) as (I1 & I2 & I3).
      split; [cbn [app]; congruence|]. split; [rewrite !lenN_cons; lia|].
      rewrite I3. rewrite N.add_mod_idemp_l by lia. cbn [total]. f_equal. lia.
    + inversion E; subst. cbn [total]. rewrite N.add_0_r, N.mod_small by assumption. change (lenN (@nil (list byte))) with 0. repeat split. lia.
Qed.

Lemma take_bytes_sum W : 0 < W -> forall l size maxb a s b, size < W -> take_bytes W size maxb l = (a, s, b) ->
  a ++ b = l /\ s = (size + total a) mod W.
Proof.
  intros HW. induction l as [|m l IH]; intros size maxb a s b Hs E; cbn [take_bytes] in E.
  - inversion E; subst. cbn [total]. rewrite N.add_0_r, N.mod_small by assumption. auto.
  - cbv zeta in E. destruct (N.leb_spec maxb ((size + lenN m) mod W)).
    + inversion E; subst. cbn [total app]. rewrite N.add_0_r. auto.
    + destruct (take_bytes W ((size + lenN m) mod W) maxb l) as [[a1 s1] b1] eqn:E1.
      assert (a = m :: a1 /\ s = s1 /\ b = b1) as (-> & -> & ->) by (repeat split; congruence).
      destruct (IH _ _ _ _ _ (N.mod_upper_bound _ W ltac:(lia)) E1) as (I1 & I2).
      split; [cbn [app]; congruence|]. rewrite I2. rewrite N.add_mod_idemp_l by lia. cbn [total]. f_equal. lia.
Qed.

Lemma take_bytes_batch W : 0 < W -> forall l size maxb a s b, size + total l < W -> take_bytes W size maxb l = (a, s, b) ->
  a ++ b = l /\ (l <> [] -> a <> []) /\ (b <> [] -> maxb <= size + total a) /\
  (forall p r, a = p ++ r -> p <> [] -> r <> [] -> size + total p < maxb).
Proof.
  intros HW. induction l as [|m l IH]; intros size maxb a s b Hs E; cbn [take_bytes] in E.
  - inversion E; subst. repeat split; try congruence. intros p r H. symmetry in H. apply app_eq_nil in H. tauto.
  - cbv zeta in E. cbn [total] in Hs. rewrite N.mod_small in E by lia. destruct (N.leb_spec maxb (size + lenN m)).
    + inversion E; subst. cbn [total app]. split; [reflexivity|]. split; [congruence|]. split; [lia|].
      intros p r H1 H2 H3. destruct p as [|x p]; [congruence|]. inversion H1 as [[Hx Hp]]. symmetry in Hp. apply app_eq_nil in Hp. tauto.
    + destruct (take_bytes W (size + lenN m) maxb l) as [[a1 s1] b1] eqn:E1.
      assert (a = m :: a1 /\ s = s1 /\ b = b1) as (-> & -> & ->) by (repeat split; congruence).
      destruct (IH (size + lenN m) maxb a1 s1 b1 ltac:(lia) E1) as (I1 & I2 & I3 & I4).
      split; [cbn [app]; congruence|]. split; [congruence|]. split.
      * intros Hb. specialize (I3 Hb). cbn [total]. lia.
      * intros p r H1 H2 H3. destruct p as [|x p]; [congruence|]. inversion H1 as [[Hx Hp]]. subst x. cbn [total].
        destruct p as [|y p]; [cbn [total]; lia|]. specialize (I4 (y :: p) r Hp ltac:(congruence) H3). lia.
Qed.

Definition q_inv (W : N) (q : mqueue) : Prop := qtotal q = total (qitems q) mod W.

Lemma q_step_inv W q o : 0 < W -> q_inv W q -> match q_step W q o with Ok (_, q') => q_inv W q' | Bad _ => True end.
Proof.
  intros HW HQ. unfold q_inv in *. destruct o as [m|m|src sz|src sz| |n|n|can|]; cbn [q_step].
  - unfold q_enqueue; cbn [qitems qtotal]. rewrite HQ, total_app. cbn [total]. rewrite N.add_mod_idemp_l by lia. f_equal. lia.
  - unfold q_enqueue_front; cbn [qitems qtotal total]. rewrite HQ. rewrite N.add_mod_idemp_l by lia. f_equal. lia.
  - unfold q_move_in. destruct (_ || _); cbn [bind qitems qtotal]; [|exact I].
    rewrite HQ, total_app, bytes_of_ok by assumption. rewrite <- N.add_mod by lia. reflexivity.
  - unfold q_move_in_front. destruct (_ || _); cbn [bind qitems qtotal]; [|exact I].
    rewrite HQ, total_app, bytes_of_ok by assumption. rewrite <- N.add_mod by lia. f_equal. lia.
  - unfold q_pop. destruct (qitems q) as [|m ms] eqn:E; cbn [qitems qtotal]; [rewrite E; exact HQ|].
    rewrite HQ. cbn [total]. rewrite (N.add_comm (lenN m)). apply subW_ok'. assumption.
  - unfold q_out_num. destruct (n =? W - 1); cbn [qitems qtotal total]; [rewrite N.mod_0_l by lia; reflexivity|].
    destruct (0 <? n); [|exact HQ]. destruct (take_num W 0 0 n (qitems q)) as [[a s] b] eqn:E. cbn [qitems qtotal].
    destruct (take_num_ok W HW _ _ _ _ _ _ _ HW E) as (I1 & _ & I3). rewrite N.add_0_l in I3.
    rewrite HQ, <- I1, I3, total_app, N.add_comm. apply subW_ok. assumption.
  - unfold q_out_bytes. destruct (n =? W - 1); cbn [qitems qtotal total]; [rewrite N.mod_0_l by lia; reflexivity|].
    destruct (take_bytes W 0 n (qitems q)) as [[a s] b] eqn:E. cbn [qitems qtotal].
    destruct (take_bytes_sum W HW _ _ _ _ _ _ HW E) as (I1 & I3). rewrite N.add_0_l in I3.
    rewrite HQ, <- I1, I3, total_app, N.add_comm. apply subW_ok. assumption.
  - cbn [q_swap qitems qtotal]. apply bytes_of_ok. assumption.
  - cbn [qitems qtotal total]. rewrite N.mod_0_l by lia. reflexivity.
Qed.

Lemma q_run_inv W : 0 < W -> forall os q, q_inv W q -> match q_run W q os with Ok (_, q') => q_inv W q' | Bad _ => True end.
Proof.
  intros HW. induction os as [|o os IH]; intros q HQ; cbn [q_run]; [exact HQ|].
  pose proof (q_step_inv W q o HW HQ) as S. destruct (q_step W q o) as [[out q1]|x]; cbn [bind]; [|exact I].
  specialize (IH q1 S). destruct (q_run W q1 os) as [[outs q2]|x]; cbn [bind]; [exact IH|exact I].
Qed.

Lemma q_step_ideal W q o : 1 < W -> q_inv W q -> qop_ok o -> total (qitems q) + qop_adds o < W - 1 -> lenN (qitems q) < W - 1 ->
  exists out q', q_step W q o = Ok (out, q') /\ ideal o (qitems q) out (qitems q').
Proof.
  intros HW HQ HO HT HL. assert (HP : 0 < W) by lia. destruct o as [m|m|src sz|src sz| |n|n|can|]; cbn [q_step ideal qop_ok qop_adds] in *.
  - do 2 eexists. split; [reflexivity|]. split; reflexivity.
  - do 2 eexists. split; [reflexivity|]. split; reflexivity.
  - unfold q_move_in. rewrite bytes_of_ok, N.mod_small by lia.
    assert (E : (sz =? 0) || (total src =? sz) = true) by lia. rewrite E. cbn [bind].
    do 2 eexists. split; [reflexivity|]. split; reflexivity.
  - unfold q_move_in_front. rewrite bytes_of_ok, N.mod_small by lia.
    assert (E : (sz =? 0) || (total src =? sz) = true) by lia. rewrite E. cbn [bind].
    do 2 eexists. split; [reflexivity|]. split; reflexivity.
  - unfold q_pop. destruct (qitems q) as [|m ms] eqn:E; cbn [qitems]; do 2 eexists; (split; [reflexivity|]).
    + rewrite E. split; reflexivity.
    + cbn [qitems app]. split; [reflexivity|]. rewrite !lenN_cons. change (lenN (@nil (list byte))) with 0. lia.
  - unfold q_out_num. destruct (N.eqb_spec n (W - 1)) as [->|Hn].
    + do 2 eexists. split; [reflexivity|]. cbn [qitems]. rewrite app_nil_r. split; [reflexivity|lia].
    + destruct (N.ltb_spec 0 n).
      * destruct (take_num W 0 0 n (qitems q)) as [[a s] b] eqn:E.
        destruct (take_num_ok W HP _ _ _ _ _ _ _ HP E) as (I1 & I2 & _).
        do 2 eexists. split; [reflexivity|]. cbn [qitems]. split; [assumption|]. rewrite N.sub_0_r in I2. assumption.
      * do 2 eexists. split; [reflexivity|]. cbn [app]. split; [reflexivity|]. change (lenN (@nil (list byte))) with 0. lia.
  - unfold q_out_bytes. destruct (N.eqb_spec n (W - 1)) as [->|Hn].
    + do 2 eexists. split; [reflexivity|]. cbn [qitems]. unfold batch. rewrite app_nil_r. split; [reflexivity|]. split; [auto|]. split; [congruence|].
      intros p r E _ _. rewrite E, total_app in HT. lia.
    + destruct (take_bytes W 0 n (qitems q)) as [[a s] b] eqn:E.
      assert (HS : 0 + total (qitems q) < W) by lia. destruct (take_bytes_batch W HP _ _ _ _ _ _ HS E) as (I1 & I2 & I3 & I4).
      do 2 eexists. split; [reflexivity|]. cbn [qitems]. unfold batch. repeat split; assumption.
  - do 2 eexists. split; reflexivity || (split; reflexivity).
  - do 2 eexists. split; reflexivity || (split; reflexivity).
Qed.
