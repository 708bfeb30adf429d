(** C147: concurrent_server goes on accepting. *)
From Coq Require Import List Arith Bool Lia.
From Verif Require Import M_Conc S_Conc.
Import ListNotations.

Lemma count_app f a b : count f (a ++ b) = count f a + count f b.
Proof. unfold count. rewrite filter_app, app_length. reflexivity. Qed.
Record W (c : dcfg) (s : dst) (t : list dev) : Prop := mk_W {
  w_alive : d_alive s + count closed t = count kept t;
  w_num : d_num c <= d_pend s + count kept t + count refused t;
  w_left : count refused t = 0 -> S (d_margin c) <= d_num c -> S (d_margin c) <= d_pend s + d_deciding s + count closed t }.
Lemma W_init c : W c (d0 c) [].
Proof. constructor; cbn; lia. Qed.
Lemma W_step c s t a s1 e : W c s t -> dstep c s a = Some (s1, e) -> W c s1 (t ++ e).
Proof.
  intros [A N L] H. destruct a; cbn [dstep] in H.
  - destruct (d_pend s) as [|p]; [discriminate H|]. destruct (d_alive s <? d_max c); injection H as <- <-; constructor; cbn [d_pend d_deciding d_alive]; rewrite !count_app; cbn; try lia; intros Q1 Q2; rewrite ?count_app in *; cbn in *; try lia; specialize (L ltac:(lia) Q2); lia.
  - destruct (d_deciding s) as [|k]; [discriminate H|]. injection H as <- <-. rewrite app_nil_r. destruct (Nat.leb_spec (d_num c) (d_alive s + d_margin c)) as [G|G]; constructor; cbn [d_pend d_deciding d_alive]; try lia; intros Q1 Q2; specialize (L Q1 Q2); lia.
  - destruct (d_alive s) as [|n] eqn:E; [discriminate H|]. injection H as <- <-. constructor; cbn [d_pend d_deciding d_alive]; rewrite !count_app; cbn; try lia; intros Q1 Q2; specialize (L ltac:(lia) Q2); lia.
Qed.
Lemma W_run c l : forall s t s1 e, W c s t -> drun c s l = Some (s1, e) -> W c s1 (t ++ e).
Proof.
  induction l as [|a l IH]; intros s t s1 e HW H; cbn [drun] in H; [injection H as <- <-; rewrite app_nil_r; exact HW|].
  destruct (dstep c s a) as [(s2, e2)|] eqn:ST; [|discriminate H]. destruct (drun c s2 l) as [(s3, e3)|] eqn:R; [|discriminate H]. injection H as <- <-. rewrite app_assoc. exact (IH s2 _ s3 e3 (W_step c s t a s2 e2 HW ST) R).
Qed.
Lemma drun_app c l1 l2 : forall s s1 t1, drun c s l1 = Some (s1, t1) -> drun c s (l1 ++ l2) = match drun c s1 l2 with Some (s2, t2) => Some (s2, t1 ++ t2) | None => None end.
Proof.
  induction l1 as [|a l1 IH]; intros s s1 t1 H; cbn [drun app] in *; [injection H as <- <-; destruct (drun c s l2) as [(?, ?)|]; reflexivity|].
  destruct (dstep c s a) as [(s2, e2)|]; [|discriminate H]. destruct (drun c s2 l1) as [(s3, e3)|] eqn:R; [|discriminate H]. injection H as <- <-. rewrite (IH s2 s3 e3 R). destruct (drun c s3 l2) as [(?, ?)|]; [rewrite app_assoc|]; reflexivity.
Qed.
Lemma decide_all c : forall k s, d_deciding s = k -> exists s1, drun c s (repeat DDecide k) = Some (s1, []) /\ d_deciding s1 = 0.
Proof.
  induction k as [|k IH]; intros s E; [exists s; split; [reflexivity|exact E]|]. cbn [repeat drun dstep]. rewrite E. destruct (IH (mk_ds (if d_num c <=? d_alive s + d_margin c then S (d_pend s) else d_pend s) k (d_alive s)) eq_refl) as (s1 & R & Z).
  rewrite R. exists s1. split; [reflexivity|exact Z].
Qed.

(** English: as long as the pool never was full, the server accepts connections. *)
Definition C147_statement : Prop := forall c l s t, S (d_margin c) <= d_num c -> drun c (d0 c) l = Some (s, t) -> count refused t = 0 -> listens c s.
(** it holds as long as at most ten links have ended *)
Theorem C147_partial : forall c l s t, S (d_margin c) <= d_num c -> drun c (d0 c) l = Some (s, t) -> count refused t = 0 -> count closed t <= d_margin c -> listens c s.
Proof.
  intros c l s t HM R Z Q. destruct (decide_all c (d_deciding s) s eq_refl) as (s1 & R1 & Z1).
  assert (R2 := drun_app c l (repeat DDecide (d_deciding s)) (d0 c) s t R). rewrite R1, app_nil_r in R2. assert (HW := W_run c _ _ [] _ _ (W_init c) R2). cbn [app] in HW. destruct HW as [_ _ L]. specialize (L Z HM).
  assert (P : d_pend s1 <> 0) by lia. destruct (d_pend s1) as [|p] eqn:E; [contradiction|].
  exists (d_deciding s). rewrite (drun_app c _ [DAccept] s s1 [] R1). cbn [drun dstep]. rewrite E. destruct (d_alive s1 <? d_max c); do 2 eexists; reflexivity.
Qed.
Print Assumptions C147_partial.
(** English: a server that never listens again has accepted at least as many connections as it had started accepts for. *)
Theorem C147_first : forall c l s t, drun c (d0 c) l = Some (s, t) -> count kept t + count refused t < d_num c -> listens c s.
Proof.
  intros c l s t R Q. assert (HW := W_run c _ _ [] _ _ (W_init c) R). cbn [app] in HW. destruct HW as [_ N _]. destruct (d_pend s) as [|p] eqn:E; [lia|]. exists 0. cbn [repeat app drun dstep]. rewrite E. destruct (d_alive s <? d_max c); do 2 eexists; reflexivity.
Qed.
Print Assumptions C147_first.
Definition ex_d : dcfg := mk_d 14 3 100.
Example C147_example : exists s t, drun ex_d (d0 ex_d) (concat (repeat [DAccept; DDecide] 20) ++ [DClose; DClose; DClose; DAccept]) = Some (s, t) /\ count refused t = 0 /\ count closed t = 3 /\ links t = 18 /\ d_pend s = 3.
Proof. do 2 eexists. split; [vm_compute; reflexivity|]. split; [reflexivity|]. split; [reflexivity|]. split; reflexivity. Qed.

(** English: clients that come and go one after another: after ST_ASIO_ASYNC_ACCEPT_NUM of them the server has no link and accepts nothing any more. *)
Definition visit_once : list dact := [DAccept; DDecide; DClose].
Lemma visits c : 1 + d_margin c < d_num c -> 1 <= d_max c -> forall k p, k <= p -> exists t, drun c (mk_ds p 0 0) (concat (repeat visit_once k)) = Some (mk_ds (p - k) 0 0, t) /\ count refused t = 0.
Proof.
  intros H1 H2. induction k as [|k IH]; intros p L; [exists []; rewrite Nat.sub_0_r; split; reflexivity|]. destruct p as [|p]; [lia|]. cbn [repeat concat visit_once app drun dstep d_pend d_deciding d_alive].
  destruct (Nat.ltb_spec 0 (d_max c)); [|lia]. cbn [d_pend d_deciding d_alive]. destruct (Nat.leb_spec (d_num c) (1 + d_margin c)); [lia|]. cbn [d_pend d_deciding d_alive]. destruct (IH p ltac:(lia)) as (t & R & Z). change (S p - S k) with (p - k). rewrite R. eexists. split; [reflexivity|].
  change (count refused ([DAccepted true] ++ [] ++ [DClosed] ++ t) = 0). rewrite !count_app, Z. reflexivity.
Qed.
Theorem C147_refuted : forall c, 1 + d_margin c < d_num c -> 1 <= d_max c -> exists l s t, drun c (d0 c) l = Some (s, t) /\ count refused t = 0 /\ d_alive s = 0 /\
  forall l' s' t', drun c s l' = Some (s', t') -> l' = [] /\ t' = [].
Proof.
  intros c H1 H2. destruct (visits c H1 H2 (d_num c) (d_num c) (le_n _)) as (t & R & Z). rewrite Nat.sub_diag in R. exists (concat (repeat visit_once (d_num c))), (mk_ds 0 0 0), t. split; [exact R|]. split; [exact Z|]. split; [reflexivity|].
  intros l' s' t' R'. destruct l' as [|[| |] l']; [injection R' as _ <-; split; reflexivity| | |]; discriminate R'.
Qed.
Print Assumptions C147_refuted.
Example C147_refuted_example : 1 + d_margin (mk_d 1024 10 2048) < d_num (mk_d 1024 10 2048).
Proof. cbn [d_margin d_num]. lia. Qed.
Theorem C147_statement_refuted : ~ C147_statement.
Proof.
  intros H. assert (H1 : 1 + d_margin ex_d < d_num ex_d) by (cbn; lia). destruct (C147_refuted ex_d H1 ltac:(cbn; lia)) as (l & s & t & R & Z & _ & D). destruct (H ex_d l s t ltac:(cbn; lia) R Z) as (k & s1 & t1 & R1). destruct (D _ _ _ R1) as (Q & _). destruct k; discriminate Q.
Qed.
Print Assumptions C147_statement_refuted.
