(** Lemmas about byte lists. *)
From Coq Require Import Arith List NArith Bool Lia ZifyBool ZifyNat ZifyN.
From Verif Require Import M_Bytes.
Import ListNotations.
Open Scope N_scope.

Lemma lenN_app {A} (a b : list A) : lenN (a ++ b) = lenN a + lenN b.
Proof. unfold lenN. rewrite app_length. lia. Qed.
Lemma lenN_nil {A} : lenN (@nil A) = 0.
Proof. reflexivity. Qed.
Lemma lenN_cons {A} (x : A) l : lenN (x :: l) = 1 + lenN l.
Proof. unfold lenN. cbn [length]. lia. Qed.
Lemma lenN_0 {A} (l : list A) : lenN l = 0 -> l = [].
Proof. destruct l; [reflexivity|]. rewrite lenN_cons. lia. Qed.
Lemma lenN_takeN {A} n (l : list A) : lenN (takeN n l) = N.min n (lenN l).
Proof. unfold lenN, takeN. rewrite firstn_length. lia. Qed.
Lemma lenN_dropN {A} n (l : list A) : lenN (dropN n l) = lenN l - n.
Proof. unfold lenN, dropN. rewrite skipn_length. lia. Qed.
Lemma take_drop {A} n (l : list A) : takeN n l ++ dropN n l = l.
Proof. apply firstn_skipn. Qed.
Lemma takeN_0 {A} (l : list A) : takeN 0 l = [].
Proof. reflexivity. Qed.
Lemma dropN_0 {A} (l : list A) : dropN 0 l = l.
Proof. reflexivity. Qed.
Lemma takeN_all {A} n (l : list A) : lenN l <= n -> takeN n l = l.
Proof. unfold lenN, takeN. intros. apply firstn_all2. lia. Qed.
Lemma dropN_all {A} n (l : list A) : lenN l <= n -> dropN n l = [].
Proof. unfold lenN, dropN. intros. apply skipn_all2. lia. Qed.
Lemma takeN_app {A} n (a b : list A) : takeN n (a ++ b) = takeN n a ++ takeN (n - lenN a) b.
Proof. unfold takeN, lenN. rewrite firstn_app. do 2 f_equal. lia. Qed.
Lemma dropN_app {A} n (a b : list A) : dropN n (a ++ b) = dropN n a ++ dropN (n - lenN a) b.
Proof. unfold dropN, lenN. rewrite skipn_app. do 2 f_equal. lia. Qed.
Lemma takeN_app_le {A} n (a b : list A) : n <= lenN a -> takeN n (a ++ b) = takeN n a.
Proof. intros. rewrite takeN_app. replace (n - lenN a) with 0 by lia. rewrite takeN_0. apply app_nil_r. Qed.
Lemma takeN_app_ge {A} n (a b : list A) : lenN a <= n -> takeN n (a ++ b) = a ++ takeN (n - lenN a) b.
Proof. intros. rewrite takeN_app, takeN_all by lia. reflexivity. Qed.
Lemma dropN_app_le {A} n (a b : list A) : n <= lenN a -> dropN n (a ++ b) = dropN n a ++ b.
Proof. intros. rewrite dropN_app. replace (n - lenN a) with 0 by lia. reflexivity. Qed.
Lemma dropN_app_ge {A} n (a b : list A) : lenN a <= n -> dropN n (a ++ b) = dropN (n - lenN a) b.
Proof. intros. rewrite dropN_app, (dropN_all n a) by lia. reflexivity. Qed.
Lemma dropN_dropN {A} n m (l : list A) : dropN n (dropN m l) = dropN (m + n) l.
Proof.
  unfold dropN. rewrite N2Nat.inj_add. generalize (N.to_nat n) as b, (N.to_nat m) as a. intros b a. revert l.
  induction a as [|a IH]; intros l; [reflexivity|].
  destruct l; cbn [skipn Nat.add]; [apply skipn_nil|apply IH].
Qed.
Lemma takeN_takeN {A} n m (l : list A) : takeN n (takeN m l) = takeN (N.min n m) l.
Proof. unfold takeN. rewrite firstn_firstn. f_equal. lia. Qed.
Lemma takeN_takeN_le {A} n m (l : list A) : n <= m -> takeN n (takeN m l) = takeN n l.
Proof. intros. rewrite takeN_takeN. f_equal. lia. Qed.
Lemma dropN_takeN {A} n m (l : list A) : dropN n (takeN m l) = takeN (m - n) (dropN n l).
Proof.
  unfold takeN, dropN. rewrite N2Nat.inj_sub.
  generalize (N.to_nat n) as b, (N.to_nat m) as a. intros b a. revert a l.
  induction b as [|b IH]; intros a l; [rewrite Nat.sub_0_r; reflexivity|].
  destruct a, l; cbn [firstn skipn Nat.sub]; rewrite ?firstn_nil; try reflexivity. apply IH.
Qed.
Lemma takeN_add {A} n m (l : list A) : takeN (n + m) l = takeN n l ++ takeN m (dropN n l).
Proof.
  unfold takeN, dropN. rewrite N2Nat.inj_add.
  generalize (N.to_nat n) as a, (N.to_nat m) as b. intros a b. revert l.
  induction a as [|a IH]; intros l; [reflexivity|].
  destruct l; cbn [firstn skipn Nat.add app]; [rewrite firstn_nil; reflexivity|]. f_equal. apply IH.
Qed.
Lemma app_take_eq {A} n (a b : list A) : lenN a = n -> takeN n (a ++ b) = a.
Proof. intros <-. rewrite takeN_app_le by lia. apply takeN_all. lia. Qed.
Lemma app_drop_eq {A} n (a b : list A) : lenN a = n -> dropN n (a ++ b) = b.
Proof. intros <-. rewrite dropN_app_ge by lia. replace (lenN a - lenN a) with 0 by lia. reflexivity. Qed.

Lemma blit_ok dst off src : off + lenN src <= lenN dst ->
  blit dst off src = Ok (takeN off dst ++ src ++ dropN (off + lenN src) dst).
Proof. intros. unfold blit. destruct (N.leb_spec (off + lenN src) (lenN dst)); [reflexivity|lia]. Qed.
Lemma blit_len dst off src r : blit dst off src = Ok r -> lenN r = lenN dst.
Proof.
  unfold blit. destruct (N.leb_spec (off + lenN src) (lenN dst)); intros E; inversion E; subst.
  rewrite !lenN_app, lenN_takeN, lenN_dropN. lia.
Qed.
Lemma fetch_ok blk off n : off + n <= lenN blk -> fetch blk off n = Ok (takeN n (dropN off blk)).
Proof. intros. unfold fetch. destruct (N.leb_spec (off + n) (lenN blk)); [reflexivity|lia]. Qed.

(** the bytes before the write position and the written ones *)
Lemma blit_take dst off src r : blit dst off src = Ok r -> takeN (off + lenN src) r = takeN off dst ++ src.
Proof.
  unfold blit. destruct (N.leb_spec (off + lenN src) (lenN dst)); intros E; inversion E; subst.
  rewrite app_assoc. apply app_take_eq. rewrite lenN_app, lenN_takeN. lia.
Qed.

(** numbers and bytes *)
Lemma to_N_byte_of_N n : Byte.to_N (byte_of_N n) = n mod 256.
Proof.
  unfold byte_of_N. destruct (Byte.of_N (n mod 256)) eqn:E.
  - apply Byte.to_of_N. exact E.
  - apply Byte.of_N_None_iff in E. pose proof (N.mod_lt n 256). lia.
Qed.
Lemma byte_of_N_to_N b : byte_of_N (Byte.to_N b) = b.
Proof.
  unfold byte_of_N. pose proof (Byte.to_N_bounded b).
  rewrite N.mod_small by lia. rewrite Byte.of_to_N. reflexivity.
Qed.
Lemma be_encode_len k n : length (be_encode k n) = k.
Proof. revert n; induction k; intros n; cbn [be_encode]; [reflexivity|]. rewrite app_length, IHk. cbn. lia. Qed.
Lemma be_decode_app l b : be_decode (l ++ [b]) = be_decode l * 256 + Byte.to_N b.
Proof. unfold be_decode. rewrite fold_left_app. reflexivity. Qed.
Lemma be_decode_encode k n : be_decode (be_encode k n) = n mod 256 ^ N.of_nat k.
Proof.
  revert n; induction k as [|k IH]; intros n.
  - cbn. rewrite N.mod_1_r. reflexivity.
  - cbn [be_encode]. rewrite be_decode_app, IH, to_N_byte_of_N.
    replace (N.of_nat (S k)) with (N.succ (N.of_nat k)) by lia. rewrite N.pow_succ_r'.
    rewrite (N.mul_comm 256), N.mul_comm. rewrite (N.mul_comm (256 ^ _)).
    rewrite N.mod_mul_r; [lia|lia|]. apply N.pow_nonzero. lia.
Qed.
Lemma be_decode_bound l : be_decode l < 256 ^ lenN l.
Proof.
  induction l as [|b l IH] using rev_ind; [cbn; lia|].
  rewrite be_decode_app, lenN_app. change (lenN [b]) with 1. rewrite N.add_1_r, N.pow_succ_r'.
  pose proof (Byte.to_N_bounded b). lia.
Qed.
Lemma be_encode_decode l : be_encode (length l) (be_decode l) = l.
Proof.
  induction l as [|b l IH] using rev_ind; [reflexivity|].
  rewrite app_length, Nat.add_1_r. cbn [be_encode]. rewrite be_decode_app.
  pose proof (Byte.to_N_bounded b).
  rewrite N.div_add_l, N.div_small by lia. rewrite N.add_0_r, IH. f_equal. f_equal.
  unfold byte_of_N. rewrite N.add_comm, N.mod_add, N.mod_small, Byte.of_to_N by lia. reflexivity.
Qed.

Lemma byte_eqb_eq a b : byte_eqb a b = true <-> a = b.
Proof. unfold byte_eqb. split; [apply Byte.byte_dec_bl|apply Byte.byte_dec_lb]. Qed.
Lemma bytes_eqb_eq a b : bytes_eqb a b = true <-> a = b.
Proof.
  revert b; induction a as [|x a IH]; intros [|y b]; cbn [bytes_eqb]; split; intros E; try congruence.
  - apply andb_prop in E as [E1 E2]. apply byte_eqb_eq in E1. apply IH in E2. congruence.
  - inversion E; subst. apply andb_true_intro. split; [apply byte_eqb_eq|apply IH]; reflexivity.
Qed.
Lemma bytes_eqb_neq a b : bytes_eqb a b = false <-> a <> b.
Proof. rewrite <- bytes_eqb_eq. destruct (bytes_eqb a b); split; congruence. Qed.
