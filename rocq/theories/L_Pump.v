(** Lemmas on placing objects and threads. *)
From Coq Require Import List NArith ZArith Bool Arith Lia ZifyBool ZifyNat ZifyN.
From Verif Require Import M_Pump S_Pump.
Import ListNotations.
Open Scope N_scope.

Lemma nth_upd {A} (f : A -> A) : forall l k j, nth_error (upd_nth k f l) j = if (j =? k)%nat then option_map f (nth_error l j) else nth_error l j.
Proof.
  induction l as [|x l IH]; intros [|k] [|j]; cbn [upd_nth nth_error]; try reflexivity.
  - cbn. destruct (j =? k)%nat; reflexivity.
  - exact (IH k j).
Qed.
Lemma length_upd {A} (f : A -> A) : forall l k, length (upd_nth k f l) = length l.
Proof. induction l as [|x l IH]; intros [|k]; cbn; auto. Qed.
Lemma In_upd {A} (f : A -> A) l k y : In y (upd_nth k f l) -> (exists x, nth_error l k = Some x /\ y = f x) \/ In y l.
Proof.
  intros H. apply In_nth_error in H. destruct H as (j & H). rewrite nth_upd in H. destruct (Nat.eqb_spec j k) as [EJ|NJ]; [subst j|].
  - destruct (nth_error l k) eqn:E; [|discriminate]. inversion H; subst. left. eauto.
  - right. eapply nth_error_In. exact H.
Qed.

(** ** least *)
Lemma least_loop_spec : forall l i refs ctx k, least_loop l i refs ctx = Some k ->
  (ctx = Some k /\ refs <> 0 /\ forall y, In y l -> refs <= y) \/
  (ctx = Some k /\ l = []) \/
  (exists m x, k = (i + m)%nat /\ nth_error l m = Some x /\ (forall y, In y l -> x <= y) /\ (forall j y, (j < m)%nat -> nth_error l j = Some y -> x < y) /\ (refs = 0 \/ x < refs)).
Proof.
  induction l as [|x l IH]; intros i refs ctx k H; cbn [least_loop] in H; [right; left; auto|].
  destruct (N.eqb_spec x 0) as [->|NZ]; cbn [orb] in H.
  { right. right. exists 0%nat, 0. inversion H. split; [lia|]. split; [reflexivity|]. split; [intros; lia|]. split; [intros; lia|lia]. }
  destruct (N.eqb_spec refs 0) as [->|NR]; cbn [orb] in H.
  - apply IH in H. right. right. destruct H as [(H1 & _ & H2)|[(H1 & ->)|(m & z & H1 & H2 & H3 & H4 & H5)]].
    + inversion H1. exists 0%nat, x. split; [lia|]. split; [reflexivity|]. split; [intros y [<-|Y]; [lia|auto]|]. split; [intros; lia|auto].
    + inversion H1. exists 0%nat, x. split; [lia|]. split; [reflexivity|]. split; [intros y [<-|[]]; lia|]. split; [intros; lia|auto].
    + exists (S m), z. split; [lia|]. split; [exact H2|]. assert (z < x) by lia. split; [intros y [<-|Y]; [lia|auto]|]. split; [|auto]. intros [|j] y J E; cbn [nth_error] in E; [inversion E; lia|eapply H4; [|exact E]; lia].
  - destruct (N.ltb_spec x refs).
    + apply IH in H. right. right. destruct H as [(H1 & _ & H2)|[(H1 & ->)|(m & z & H1 & H2 & H3 & H4 & H5)]].
      * inversion H1. exists 0%nat, x. split; [lia|]. split; [reflexivity|]. split; [intros y [<-|Y]; [lia|auto]|]. split; [intros; lia|auto].
      * inversion H1. exists 0%nat, x. split; [lia|]. split; [reflexivity|]. split; [intros y [<-|[]]; lia|]. split; [intros; lia|auto].
      * exists (S m), z. split; [lia|]. split; [exact H2|]. assert (z < x) by lia. split; [intros y [<-|Y]; [lia|auto]|]. split; [|lia]. intros [|j] y J E; cbn [nth_error] in E; [inversion E; lia|eapply H4; [|exact E]; lia].
    + apply IH in H. destruct H as [(H1 & HZ & H2)|[(H1 & ->)|(m & z & H1 & H2 & H3 & H4 & H5)]].
      * left. split; [exact H1|]. split; [exact HZ|]. intros y [<-|Y]; [lia|auto].
      * left. split; [exact H1|]. split; [exact NR|]. intros y [<-|[]]. lia.
      * right. right. exists (S m), z. split; [lia|]. split; [exact H2|]. assert (z < refs) by lia. split; [intros y [<-|Y]; [lia|auto]|]. split; [|lia]. intros [|j] y J E; cbn [nth_error] in E; [inversion E; lia|eapply H4; [|exact E]; lia].
Qed.
Lemma least_first l k : least l = Some k -> first_least l k.
Proof.
  intros H. apply least_loop_spec in H. destruct H as [(H & _)|[(H & _)|(m & x & H1 & H2 & H3 & H4 & _)]]; [discriminate|discriminate|]. cbn [Nat.add] in H1. subst. exists x. auto.
Qed.
Lemma least_loop_some : forall l i refs c, exists k, least_loop l i refs (Some c) = Some k.
Proof.
  induction l as [|x l IH]; intros; cbn [least_loop]; [eauto|]. destruct (x =? 0); cbn [orb]; [eauto|]. destruct ((refs =? 0) || (x <? refs)); apply IH.
Qed.
Lemma least_some l : l <> [] -> exists k, least l = Some k.
Proof.
  destruct l as [|x l]; [congruence|]. intros _. unfold least. cbn [least_loop]. rewrite orb_true_r. cbn [orb]. destruct (x =? 0); [eauto|apply least_loop_some].
Qed.

Lemma spread_inc l k d f : first_least l k -> 1 <= d -> spread l d -> (forall x, nth_error l k = Some x -> f x = x + 1) -> spread (upd_nth k f l) d.
Proof.
  intros (m & M1 & M2 & _) D S F x y X Y. apply In_upd in X. apply In_upd in Y. pose proof (nth_error_In _ _ M1) as IM.
  destruct X as [(x0 & E & ->)|X]; destruct Y as [(y0 & E' & ->)|Y].
  - rewrite E in E'. inversion E'. lia.
  - rewrite M1 in E. inversion E; subst. rewrite (F _ M1). specialize (M2 _ Y). lia.
  - rewrite M1 in E'. inversion E'; subst. rewrite (F _ M1). specialize (S _ _ X IM). lia.
  - apply S; assumption.
Qed.

(** ** references *)
Lemma held_upd k n : forall l o r, nth_error l o = Some r ->
  held k (upd_nth o (fun r => mk_ro (ro_ctx r) n) l) + (if (ro_ctx r =? k)%nat then ro_refs r else 0) = held k l + (if (ro_ctx r =? k)%nat then n else 0).
Proof.
  induction l as [|x l IH]; intros [|o] r H; cbn [nth_error] in H; try discriminate; cbn [upd_nth held].
  - inversion H; subst. cbn [ro_ctx ro_refs]. destruct (_ =? _)%nat; lia.
  - specialize (IH _ _ H). lia.
Qed.
Lemma held_app k a b : held k (a ++ b) = held k a + held k b.
Proof. induction a as [|x a IH]; cbn [app held]; [reflexivity|]. rewrite IH. lia. Qed.

Record rinv (p : pump) : Prop := mk_rinv {
  r_zero : single p = true -> forall x, In x (ctxs p) -> x = 0;
  r_bal : single p = false -> forall k x, nth_error (ctxs p) k = Some x -> x = held k (robjs p) mod W32
}.
Lemma W32_pos : W32 <> 0. Proof. discriminate. Qed.
Lemma set_refs_nth p o n : ctxs (set_refs p o n) = ctxs p /\ single (set_refs p o n) = single p. Proof. split; reflexivity. Qed.

Lemma rinv_do_add p o r n : nth_error (robjs p) o = Some r -> rinv p -> rinv (do_add p o r n).
Proof.
  intros E V. unfold do_add. destruct (N.ltb_spec 0 n); [|exact V]. unfold add_refs. change (single (set_refs p o _)) with (single p). destruct (single p) eqn:SG.
  { constructor; [intros _; apply (r_zero _ V SG)|]. change (single (set_refs p o ((ro_refs r + n) mod W32))) with (single p). congruence. }
  constructor; cbn [single ctxs robjs]; [discriminate|]. intros _ k x H0. change (ctxs (set_refs p o _)) with (ctxs p) in H0. rewrite nth_upd in H0. cbn [set_refs robjs].
  pose proof (held_upd k ((ro_refs r + n) mod W32) _ _ _ E) as HU. set (h := held k (upd_nth o _ (robjs p))) in *.
  pose proof (N.div_mod (ro_refs r + n) W32 W32_pos) as DM. set (q := (ro_refs r + n) / W32) in *. set (m := (ro_refs r + n) mod W32) in *.
  rewrite Nat.eqb_sym in H0. destruct (ro_ctx r =? k)%nat.
  - destruct (nth_error (ctxs p) k) as [y|] eqn:EY; [|discriminate]. cbn [option_map] in H0. injection H0 as <-. rewrite (r_bal _ V SG _ _ EY), N.add_mod_idemp_l by exact W32_pos.
    replace (held k (robjs p) + n) with (h + q * W32) by lia. apply N.mod_add. exact W32_pos.
  - rewrite (r_bal _ V SG _ _ H0). f_equal. lia.
Qed.
Lemma rinv_do_sub p o r n : nth_error (robjs p) o = Some r -> n < W32 -> rinv p -> rinv (do_sub p o r n).
Proof.
  intros E NW V. unfold do_sub. destruct (N.ltb_spec 0 n); [|exact V]. destruct (N.leb_spec n (ro_refs r)); [|exact V]. cbn [andb]. unfold sub_refs. change (single (set_refs p o _)) with (single p). destruct (single p) eqn:SG.
  { constructor; [intros _; apply (r_zero _ V SG)|]. change (single (set_refs p o (ro_refs r - n))) with (single p). congruence. }
  constructor; cbn [single ctxs robjs]; [discriminate|]. intros _ k x H1. change (ctxs (set_refs p o _)) with (ctxs p) in H1. rewrite nth_upd in H1. cbn [set_refs robjs].
  pose proof (held_upd k (ro_refs r - n) _ _ _ E) as HU. set (h := held k (upd_nth o _ (robjs p))) in *.
  rewrite Nat.eqb_sym in H1. destruct (ro_ctx r =? k)%nat.
  - destruct (nth_error (ctxs p) k) as [y|] eqn:EY; [|discriminate]. cbn [option_map] in H1. assert (X : x = (y + (W32 - n)) mod W32) by congruence. rewrite X, (r_bal _ V SG _ _ EY), N.add_mod_idemp_l by exact W32_pos.
    replace (held k (robjs p) + (W32 - n)) with (h + 1 * W32) by lia. apply N.mod_add. exact W32_pos.
  - rewrite (r_bal _ V SG _ _ H1). f_equal. lia.
Qed.

(** object counters are 32-bit numbers *)
Definition refs_ok (p : pump) : Prop := Forall (fun r => ro_refs r < W32) (robjs p).
Lemma refs_ok_nth p o r : refs_ok p -> nth_error (robjs p) o = Some r -> ro_refs r < W32.
Proof. intros F E. apply nth_error_In in E. unfold refs_ok in F. rewrite Forall_forall in F. auto. Qed.
Lemma refs_ok_upd p o n : n < W32 -> refs_ok p -> refs_ok (set_refs p o n).
Proof.
  intros H F. unfold refs_ok in *. apply Forall_forall. intros x X. cbn [set_refs robjs] in X. apply In_upd in X. rewrite Forall_forall in F. destruct X as [(y & _ & ->)|X]; [exact H|auto].
Qed.
Lemma refs_ok_add p k n : refs_ok p -> refs_ok (add_refs p k n). Proof. unfold add_refs, refs_ok. destruct (single p); auto. Qed.
Lemma refs_ok_sub p k n : refs_ok p -> refs_ok (sub_refs p k n). Proof. unfold sub_refs, refs_ok. destruct (single p); auto. Qed.
Lemma refs_ok_step p a : refs_ok p -> refs_ok (rstep p a).
Proof.
  intros F. assert (A : forall o r n, refs_ok (do_add p o r n)). { intros. unfold do_add. destruct (0 <? n); [|exact F]. apply refs_ok_add, refs_ok_upd; [apply N.mod_upper_bound; discriminate|exact F]. }
  assert (B : forall o r n, nth_error (robjs p) o = Some r -> refs_ok (do_sub p o r n)). { intros. unfold do_sub. destruct (_ && _); [|exact F]. apply refs_ok_sub, refs_ok_upd; [pose proof (refs_ok_nth _ _ _ F H); lia|exact F]. }
  destruct a; cbn [rstep].
  - unfold assign. destruct (single p); [|destruct (least (ctxs p))].
    + unfold refs_ok. cbn [robjs]. apply Forall_app. split; [exact F|]. constructor; [reflexivity|constructor].
    + unfold refs_ok. cbn [robjs]. apply Forall_app. split; [apply (refs_ok_add p n 1 F)|]. constructor; [reflexivity|constructor].
    + exact F.
  - destruct (nth_error (robjs p) o); auto.
  - destruct (nth_error (robjs p) o) eqn:E; auto.
  - destruct (nth_error (robjs p) o) eqn:E; auto.
  - destruct (nth_error (robjs p) o); auto. destruct (ro_refs _ =? 0); auto.
  - destruct (_ || _)%nat; exact F.
  - destruct (0 <? n)%nat; exact F.
Qed.

Definition cflag (b : bool) (a : rop) : bool := match a with RNew => true | _ => b end.
Lemma len0_add p k n : length (ctxs (add_refs p k n)) = length (ctxs p). Proof. unfold add_refs. destruct (single p); [reflexivity|]. apply length_upd. Qed.
Lemma len0_sub p k n : length (ctxs (sub_refs p k n)) = length (ctxs p). Proof. unfold sub_refs. destruct (single p); [reflexivity|]. apply length_upd. Qed.

Lemma rinv_step p a : (match a with RCtxNum _ | RCtxs _ => robjs p = [] | _ => True end) -> refs_ok p -> rinv p -> rinv (rstep p a).
Proof.
  intros CF F V. destruct a; cbn [rstep].
  - unfold assign. destruct (single p) eqn:SG.
    + constructor; cbn [single ctxs robjs]; [intros _; apply (r_zero _ V SG)|congruence].
    + destruct (least (ctxs p)) as [k|] eqn:LE; [|exact V]. unfold add_refs. rewrite SG. constructor; cbn [single ctxs robjs]; [discriminate|]. intros _ j x H. rewrite nth_upd in H. rewrite held_app. cbn [held ro_ctx ro_refs].
      rewrite (Nat.eqb_sym k). destruct (j =? k)%nat.
      * destruct (nth_error (ctxs p) j) as [y|] eqn:EY; [|discriminate]. cbn [option_map] in H. injection H as <-. rewrite (r_bal _ V SG _ _ EY), N.add_mod_idemp_l by exact W32_pos. reflexivity.
      * rewrite (r_bal _ V SG _ _ H). f_equal. lia.
  - destruct (nth_error (robjs p) o) eqn:E; [|exact V]. apply rinv_do_add; assumption.
  - destruct (nth_error (robjs p) o) as [r|] eqn:E; [|exact V]. destruct (N.leb_spec n (ro_refs r)) as [L|L].
    + apply rinv_do_sub; [exact E| |exact V]. pose proof (refs_ok_nth _ _ _ F E). lia.
    + unfold do_sub. replace (n <=? ro_refs r) with false by lia. rewrite andb_false_r. exact V.
  - destruct (nth_error (robjs p) o) as [r|] eqn:E; [|exact V]. apply rinv_do_sub; [exact E|exact (refs_ok_nth _ _ _ F E)|exact V].
  - destruct (nth_error (robjs p) o) eqn:E; [|exact V]. destruct (_ =? 0); [|exact V]. apply rinv_do_add; assumption.
  - destruct (_ || _)%nat; [exact V|]. cbv zeta.
    assert (Z : forall x, In x (ctxs p ++ repeat 0 (n - 1)) -> x = 0).
    { intros x X. apply in_app_iff in X. destruct X as [X|X]; [|symmetry; exact (eq_sym (repeat_spec _ _ _ X))].
      destruct (single p) eqn:SG; [apply (r_zero _ V SG _ X)|]. apply In_nth_error in X. destruct X as (k & X). rewrite (r_bal _ V SG _ _ X), CF. reflexivity. }
    constructor; cbn [single ctxs robjs]; [intros _; exact Z|]. intros _ k x X. rewrite CF. apply nth_error_In in X. rewrite (Z _ X). reflexivity.
  - destruct (0 <? n)%nat; [|exact V].
    assert (Z : forall x, In x (ctxs p ++ repeat 0 n) -> x = 0).
    { intros x X. apply in_app_iff in X. destruct X as [X|X]; [|symmetry; exact (eq_sym (repeat_spec _ _ _ X))].
      destruct (single p) eqn:SG; [apply (r_zero _ V SG _ X)|]. apply In_nth_error in X. destruct X as (k & X). rewrite (r_bal _ V SG _ _ X), CF. reflexivity. }
    constructor; cbn [single ctxs robjs]; [discriminate|]. intros _ k x X. rewrite CF. apply nth_error_In in X. rewrite (Z _ X). reflexivity.
Qed.
Lemma no_objs_step p a : robjs p = [] -> a <> RNew -> robjs (rstep p a) = [].
Proof.
  intros E N0. destruct a; cbn [rstep]; try congruence.
  1-4: rewrite E; destruct o; exact E.
  - destruct (_ || _)%nat; exact E.
  - destruct (0 <? n)%nat; exact E.
Qed.
Lemma rinv_steps al : forall p b, (b = false -> robjs p = []) -> contexts_first b al = true -> refs_ok p -> rinv p -> rinv (rsteps p al) /\ refs_ok (rsteps p al).
Proof.
  induction al as [|a al IH]; intros p b NB CF F V; [split; assumption|]. unfold rsteps. cbn [fold_left]. fold (rsteps (rstep p a) al).
  assert (S1 : refs_ok (rstep p a)) by (apply refs_ok_step; exact F).
  destruct a; cbn [contexts_first] in CF; try (apply (IH _ b); [intros B; apply no_objs_step; [auto|discriminate]|exact CF|exact S1|apply rinv_step; [exact I|exact F|exact V]]).
  - apply (IH _ true); [discriminate|exact CF|exact S1|apply rinv_step; [exact I|exact F|exact V]].
  - destruct b; [discriminate|]. apply (IH _ false); [intros B; apply no_objs_step; [auto|discriminate]|exact CF|exact S1|apply rinv_step; [apply NB; reflexivity|exact F|exact V]].
  - destruct b; [discriminate|]. apply (IH _ false); [intros B; apply no_objs_step; [auto|discriminate]|exact CF|exact S1|apply rinv_step; [apply NB; reflexivity|exact F|exact V]].
Qed.
Lemma rinv_new m : rinv (new_pump m).
Proof. constructor; cbn [new_pump single ctxs robjs]; intros _; [intros x [<-|[]]; reflexivity|]. intros [|[|k]] x H; inversion H. reflexivity. Qed.

(** ** threads *)
Definition zeros (l : list N) : nat := length (filter (fun x => x =? 0) l).
Lemma zeros_app a b : zeros (a ++ b) = (zeros a + zeros b)%nat. Proof. unfold zeros. rewrite filter_app, app_length. reflexivity. Qed.
Lemma zeros_repeat n : zeros (repeat 0 n) = n. Proof. unfold zeros. induction n; cbn; auto. Qed.
Lemma zeros_le l : (zeros l <= length l)%nat. Proof. unfold zeros. induction l as [|x l IH]; cbn; [lia|]. destruct (x =? 0); cbn; lia. Qed.
Lemma zeros_upd : forall l k x, nth_error l k = Some x -> zeros (upd_nth k N.succ l) = (zeros l - (if (x =? 0)%N then 1 else 0))%nat.
Proof.
  induction l as [|y l IH]; intros [|k] x H; cbn [nth_error] in H; try discriminate; cbn [upd_nth].
  - inversion H; subst. unfold zeros. cbn [filter]. destruct (N.eqb_spec x 0); destruct (N.eqb_spec (N.succ x) 0); cbn [length]; lia.
  - specialize (IH _ _ H). change (y :: l) with ([y] ++ l). change (y :: upd_nth k N.succ l) with ([y] ++ upd_nth k N.succ l). rewrite !zeros_app, IH.
    destruct (x =? 0)%N eqn:X; [|lia]. assert (1 <= zeros l)%nat; [|lia]. clear - H X. revert k H. unfold zeros. induction l as [|z l IH]; intros [|k] H; cbn in *; try discriminate.
    + inversion H; subst. rewrite X. cbn. lia.
    + specialize (IH _ H). destruct (z =? 0); cbn; lia.
Qed.
Lemma least_zero l k x : least l = Some k -> nth_error l k = Some x -> (0 < zeros l)%nat -> x = 0.
Proof.
  intros L E Z. destruct (least_first _ _ L) as (y & E' & M & _). rewrite E in E'. inversion E'; subst y. unfold zeros in Z. destruct (filter (fun x => x =? 0) l) as [|z zs] eqn:F; [cbn in Z; lia|].
  assert (IZ : In z (filter (fun x => x =? 0) l)) by (rewrite F; left; reflexivity). apply filter_In in IZ. destruct IZ as (I1 & I2). specialize (M _ I1). lia.
Qed.
Lemma add_one_false t : zeros (tn (add_one t false)) = (zeros (tn t) - 1)%nat /\ blocked (add_one t false) = blocked t /\ sv_started (add_one t false) = sv_started t /\
  length (tn (add_one t false)) = length (tn t) /\ (forall d, 1 <= d -> spread (tn t) d -> spread (tn (add_one t false)) d).
Proof.
  unfold add_one. destruct (least (tn t)) as [k|] eqn:L.
  - cbn [tn blocked sv_started]. destruct (least_first _ _ L) as (x & E & M & _). rewrite (zeros_upd _ _ _ E). split.
    + destruct (Nat.eq_dec (zeros (tn t)) 0) as [Z|Z]; [lia|]. rewrite (least_zero _ _ _ L E) by lia. reflexivity.
    + split; [reflexivity|]. split; [reflexivity|]. split; [apply length_upd|]. intros d D S. apply spread_inc; [exact (least_first _ _ L)|exact D|exact S|intros; lia].
  - destruct (tn t) as [|x l] eqn:T; [|destruct (least_some (x :: l)) as (k & K); [discriminate|congruence]]. repeat split; auto.
Qed.
(** adding threads that do not block *)
Lemma add_many_false n : forall t, let t' := add_many t n false in
  zeros (tn t') = (zeros (tn t) - n)%nat /\ blocked t' = blocked t /\ sv_started t' = sv_started t /\ length (tn t') = length (tn t) /\
  (forall d, 1 <= d -> spread (tn t) d -> spread (tn t') d).
Proof.
  induction n as [|n IH]; intros t; cbn [add_many]; [repeat split; auto; lia|]. cbn [andb]. destruct (add_one_false t) as (A1 & A2 & A3 & A4 & A5).
  destruct (IH (add_one t false)) as (B1 & B2 & B3 & B4 & B5). rewrite B1, B2, B3, B4. repeat split; auto; lia.
Qed.
Lemma add_many_true n : forall t, add_many t (S n) true = add_one (add_many t n false) true.
Proof.
  induction n as [|n IH]; intros t; [reflexivity|]. cbn [add_many andb Nat.eqb]. cbn [add_many andb Nat.eqb] in IH. specialize (IH (add_one t false)). destruct n; exact IH.
Qed.
