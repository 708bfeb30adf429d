From Coq Require Import List ZArith Bool Lia.
From Verif Require Import M_Watch S_Watch.
Import ListNotations.
Open Scope Z_scope.

(** ** C157: concurrent_client gives up slow links, and only those, in time *)
Definition view_of (s : wst) : view := if w_gone s then Over else if w_conn s then Up (w_last s) else Down.
Definition wi (c : wcfg) (s : wst) : Prop :=
  (w_conn s = true -> w_gone s = false /\ w_last s <= w_now s /\ exists d, w_due s = Some d /\ d <= w_last s + w_max c + 5000 /\ w_now s <= d + w_late c) /\ (w_conn s = false -> w_due s = None).
Lemma judge_app : forall m a v b, judge m v (a ++ b) = match judge m v a with Some v1 => judge m v1 b | None => None end.
Proof. intros m. induction a as [|e a IH]; intros v b; cbn [judge app]; [reflexivity|]. destruct (judge1 m v e); [apply IH | reflexivity]. Qed.
Lemma wi_step : forall c s a s' e, 0 <= w_max c -> 0 <= w_late c -> wi c s -> wstep c s a = Some (s', e) -> wi c s' /\ judge (w_max c) (view_of s) e = Some (view_of s').
Proof.
  intros c s a s' e M L [I D] H. unfold view_of. destruct a; cbn [wstep] in H.
  - destruct (_ && _) eqn:B in H; [|discriminate H]. injection H as <- <-. cbn. split; [|reflexivity]. apply andb_prop in B. destruct B as [B1 B2]. apply Z.leb_le in B1.
    split; cbn; [|exact D]. intros C. destruct (I C) as (G & Q & d & E & F & K). rewrite E in B2. apply Z.leb_le in B2. split; [exact G|]. split; [lia|]. exists d. auto.
  - destruct (w_conn s) eqn:C; [discriminate H|]. destruct (w_gone s) eqn:G; [discriminate H|]. injection H as <- <-. cbn. split; [|reflexivity]. split; cbn; [|discriminate].
    intros _. split; [reflexivity|]. split; [lia|]. unfold every. eexists. split; [reflexivity|]. lia.
  - destruct (w_conn s) eqn:C; [|discriminate H]. destruct (I eq_refl) as (G & Q & d & E & F & K). unfold too_late in H. rewrite C in H. cbn [andb] in H. rewrite G. destruct (w_max c <? w_now s - w_last s) eqn:T; injection H as <- <-; cbn.
    + rewrite T. split; [|reflexivity]. split; cbn; [discriminate | auto].
    + rewrite G. apply Z.ltb_ge in T. replace (w_now s - w_last s <=? w_max c) with true by (symmetry; apply Z.leb_le; lia). split; [|reflexivity]. split; cbn; [|discriminate].
      intros _. split; [reflexivity|]. split; [lia|]. exists d. split; [exact E|]. lia.
  - destruct (w_due s) as [d0|] eqn:E0; [|discriminate H]. destruct (d0 <=? w_now s) eqn:B; [|discriminate H]. destruct (w_conn s) eqn:C; [|discriminate (D eq_refl)].
    destruct (I eq_refl) as (G & Q & d & E & F & K). injection E as <-. unfold too_late in H. rewrite C in H. cbn [andb] in H. rewrite G. destruct (w_max c <? w_now s - w_last s) eqn:T; injection H as <- <-; cbn.
    + rewrite T. split; [|reflexivity]. split; cbn; [discriminate | auto].
    + rewrite G, ?C. apply Z.ltb_ge in T. split; [|reflexivity]. split; cbn; [|congruence]. intros _. split; [reflexivity|]. split; [lia|]. unfold every. eexists. split; [reflexivity|]. lia.
  - destruct (w_conn s) eqn:C; [|discriminate H]. injection H as <- <-. destruct (I eq_refl) as (G & _). rewrite G. cbn. split; [|reflexivity]. split; cbn; [discriminate | auto].
Qed.
Lemma wi_run : forall c l s s' e, 0 <= w_max c -> 0 <= w_late c -> wi c s -> wrun c s l = Some (s', e) -> wi c s' /\ judge (w_max c) (view_of s) e = Some (view_of s').
Proof.
  intros c. induction l as [|a l IH]; intros s s' e M L I H; cbn [wrun] in H; [injection H as <- <-; auto|].
  destruct (wstep c s a) as [[s1 e1]|] eqn:D; [|discriminate H]. destruct (wrun c s1 l) as [[s2 e2]|] eqn:Q; [|discriminate H]. injection H as <- <-.
  destruct (wi_step _ _ _ _ _ M L I D) as [I1 J1]. destruct (IH _ _ _ M L I1 Q) as [I2 J2]. split; [exact I2|]. rewrite judge_app, J1. exact J2.
Qed.
Lemma wi_0 : forall c, wi c watch0.
Proof. intros c. split; cbn; [discriminate | auto]. Qed.
(** a message that comes back in time is sent again; one that comes back too late ends the link, for good; nothing else does *)
Theorem C157_right : forall c l s t, 0 <= w_max c -> 0 <= w_late c -> wrun c watch0 l = Some (s, t) -> judge (w_max c) Down t <> None.
Proof. intros c l s t M L H. destruct (wi_run _ _ _ _ _ M L (wi_0 c) H) as [_ J]. change Down with (view_of watch0). rewrite J. discriminate. Qed.
Print Assumptions C157_right.
(** a server that does not answer any more is noticed within max_delay and the interval of the check *)
Theorem C157_in_time : forall c l s t u, 0 <= w_max c -> 0 <= w_late c -> wrun c watch0 l = Some (s, t) -> judge (w_max c) Down t = Some (Up u) -> w_now s <= u + w_max c + 5000 + w_late c.
Proof.
  intros c l s t u M L H V. destruct (wi_run _ _ _ _ _ M L (wi_0 c) H) as [[I _] J]. change Down with (view_of watch0) in V. rewrite V in J. injection J as J.
  unfold view_of in J. destruct (w_gone s); [discriminate J|]. destruct (w_conn s); [|discriminate J]. injection J as ->. destruct (I eq_refl) as (_ & _ & d & _ & F & K). lia.
Qed.
Print Assumptions C157_in_time.
(** and time never stops: whatever happened, it can get later, after the check if that is due *)
Theorem C157_goes_on : forall c l s t x, 0 <= w_max c -> 0 <= w_late c -> wrun c watch0 l = Some (s, t) -> exists l2 s2 t2, wrun c s l2 = Some (s2, t2) /\ x <= w_now s2 /\ Forall (fun a => match a with WTime _ | WTimer => True | _ => False end) l2.
Proof.
  intros c l s t x M L H. destruct (wi_run _ _ _ _ _ M L (wi_0 c) H) as [I _]. clear H l t.
  destruct (w_conn s) eqn:C.
  - (* every check makes it later by 5 s, until the link is given up *)
    assert (X : forall n s, wi c s -> (w_conn s = true -> x <= w_now s + 5000 * Z.of_nat n) -> exists l2 s2 t2, wrun c s l2 = Some (s2, t2) /\ x <= w_now s2 /\ Forall (fun a => match a with WTime _ | WTimer => True | _ => False end) l2).
    { clear s I C. induction n as [|n IH]; intros s I Q.
      - destruct (w_conn s) eqn:C; [exists [], s, []; split; [reflexivity|]; split; [specialize (Q eq_refl); lia | constructor]|].
        destruct I as [_ D]. exists [WTime (Z.max (w_now s) x)]. cbn [wrun wstep]. rewrite (D C). replace (w_now s <=? Z.max (w_now s) x) with true by (symmetry; apply Z.leb_le; lia). cbn [andb].
        do 2 eexists. split; [reflexivity|]. split; [cbn; lia | repeat constructor].
      - destruct (w_conn s) eqn:C.
        + pose proof I as [IC _]. destruct (IC C) as (G & LN & d & E & F & K).
          assert (T1 : wstep c s (WTime (Z.max (w_now s) d)) = Some (mk_w (Z.max (w_now s) d) (w_conn s) (w_last s) (w_due s) (w_gone s), [])).
          { cbn [wstep]. rewrite E. replace (w_now s <=? Z.max (w_now s) d) with true by (symmetry; apply Z.leb_le; lia). replace (Z.max (w_now s) d <=? d + w_late c) with true by (symmetry; apply Z.leb_le; lia). reflexivity. }
          destruct (wi_step _ _ _ _ _ M L I T1) as [I1 _]. set (s1 := mk_w (Z.max (w_now s) d) (w_conn s) (w_last s) (w_due s) (w_gone s)) in *.
          assert (T2 : exists s2 e2, wstep c s1 WTimer = Some (s2, e2) /\ w_now s2 = w_now s1 /\ (w_conn s2 = true -> w_due s2 = Some (w_now s1 + 5000))).
          { cbn [wstep]. unfold s1 at 1. cbn [w_due]. rewrite E. unfold s1 at 1. cbn [w_now]. replace (d <=? Z.max (w_now s) d) with true by (symmetry; apply Z.leb_le; lia).
            destruct (too_late c s1); do 2 eexists; (split; [reflexivity|]); (split; [reflexivity|]); cbn; [discriminate | reflexivity]. }
          destruct T2 as (s2 & e2 & T2 & N2 & D2). destruct (wi_step _ _ _ _ _ M L I1 T2) as [I2 _].
          destruct (w_conn s2) eqn:C2.
          * (* go to the next expiry *)
            assert (T3 : wstep c s2 (WTime (w_now s1 + 5000)) = Some (mk_w (w_now s1 + 5000) (w_conn s2) (w_last s2) (w_due s2) (w_gone s2), [])).
            { cbn [wstep]. rewrite N2, (D2 eq_refl). replace (w_now s1 <=? w_now s1 + 5000) with true by (symmetry; apply Z.leb_le; lia). replace (_ <=? _) with true by (symmetry; apply Z.leb_le; lia). reflexivity. }
            destruct (wi_step _ _ _ _ _ M L I2 T3) as [I3 _].
            destruct (IH _ I3) as (l4 & s4 & t4 & R4 & X4 & F4); [intros _; cbn [w_now]; unfold s1; cbn [w_now]; specialize (Q eq_refl); lia|].
            exists (WTime (Z.max (w_now s) d) :: WTimer :: WTime (w_now s1 + 5000) :: l4), s4. eexists. split; [cbn [wrun]; rewrite T1; cbn [wrun]; rewrite T2, T3, R4; reflexivity|]. split; [exact X4 | repeat constructor; exact F4].
          * destruct (IH _ I2) as (l4 & s4 & t4 & R4 & X4 & F4); [congruence|].
            exists (WTime (Z.max (w_now s) d) :: WTimer :: l4), s4. eexists. split; [cbn [wrun]; rewrite T1, T2, R4; reflexivity|]. split; [exact X4 | repeat constructor; exact F4].
        + exact (IH s I ltac:(congruence)). }
    apply (X (Z.to_nat (x - w_now s)) s I). intros _. lia.
  - destruct I as [_ D]. exists [WTime (Z.max (w_now s) x)]. cbn [wrun wstep]. rewrite (D C). replace (w_now s <=? Z.max (w_now s) x) with true by (symmetry; apply Z.leb_le; lia). cbn [andb].
    do 2 eexists. split; [reflexivity|]. split; [cbn; lia | repeat constructor].
Qed.
Print Assumptions C157_goes_on.
(** so a silent server loses the link *)
Theorem C157_silent : forall c l s t u, 0 <= w_max c -> 0 <= w_late c -> wrun c watch0 l = Some (s, t) -> judge (w_max c) Down t = Some (Up u) ->
  exists l2 s2 v, wrun c s l2 = Some (s2, [ECut v]) /\ u + w_max c < v <= u + w_max c + 5000 + w_late c.
Proof.
  intros c l s t u M L H V. destruct (wi_run _ _ _ _ _ M L (wi_0 c) H) as [I J]. change Down with (view_of watch0) in V. rewrite V in J. injection J as J.
  destruct (C157_goes_on c l s t (u + w_max c + 5000 + w_late c + 1) M L H) as (l2 & s2 & t2 & R2 & X2 & F2).
  (* the first event of that run is the cut *)
  assert (G : forall l2 s s2 t2, wi c s -> view_of s = Up u -> wrun c s l2 = Some (s2, t2) -> Forall (fun a => match a with WTime _ | WTimer => True | _ => False end) l2 -> u + w_max c + 5000 + w_late c < w_now s2 ->
    exists l3 s3 v, wrun c s l3 = Some (s3, [ECut v]) /\ u + w_max c < v <= u + w_max c + 5000 + w_late c).
  { clear - M L. intros l2. induction l2 as [|a l2 IH]; intros s s2 t2 I V R F X; cbn [wrun] in R.
    - injection R as <- <-. unfold view_of in V. destruct (w_gone s); [discriminate V|]. destruct (w_conn s) eqn:C; [|discriminate V]. injection V as V. destruct I as [I _]. destruct (I C) as (_ & _ & d & _ & ? & ?). lia.
    - destruct (wstep c s a) as [[s1 e1]|] eqn:D; [|discriminate R]. destruct (wrun c s1 l2) as [[s3 e3]|] eqn:Q; [|discriminate R]. injection R as <- <-. inversion F as [|? ? Fa Fl]; subst.
      pose proof V as V0. unfold view_of in V. destruct (w_gone s) eqn:Gn; [discriminate V|]. destruct (w_conn s) eqn:C; [|discriminate V]. injection V as V.
      assert (GO : e1 = [] -> view_of s1 = Up u -> exists l3 s3 v, wrun c s (a :: l3) = Some (s3, [ECut v]) /\ u + w_max c < v <= u + w_max c + 5000 + w_late c).
      { intros -> V1. destruct (IH s1 s3 e3 (proj1 (wi_step _ _ _ _ _ M L I D)) V1 Q Fl X) as (l3 & s4 & v & R3 & B3). exists l3, s4, v. cbn [wrun]. rewrite D, R3. split; [reflexivity | exact B3]. }
      enough (exists l3 s3 v, wrun c s (a :: l3) = Some (s3, [ECut v]) /\ u + w_max c < v <= u + w_max c + 5000 + w_late c) as (l3 & Z1) by (exists (a :: l3); exact Z1).
      destruct a; try contradiction; cbn [wstep] in D.
      + destruct (_ && _) in D; [|discriminate D]. pose proof D as D1. injection D1 as <- <-. apply GO; [reflexivity|]. unfold view_of. cbn. rewrite ?Gn, ?C, ?V. reflexivity.
      + destruct (w_due s) as [d0|] eqn:E0; [|discriminate D]. destruct (d0 <=? w_now s) eqn:B; [|discriminate D]. destruct (too_late c s) eqn:T.
        * injection D as <- <-. exists [], (cut s), (w_now s). cbn [wrun wstep]. rewrite E0, B, T. split; [reflexivity|]. unfold too_late in T. apply andb_prop in T. destruct T as [_ T]. apply Z.ltb_lt in T.
          destruct I as [I _]. destruct (I C) as (_ & _ & d & _ & ? & ?). lia.
        * pose proof D as D1. injection D1 as <- <-. apply GO; [reflexivity|]. unfold view_of. cbn. rewrite ?Gn, ?C, ?V. reflexivity. }
  exact (G l2 s s2 t2 I (eq_sym J) R2 F2 ltac:(lia)).
Qed.
Print Assumptions C157_silent.

(** answers after 3 s and 2 s, then none: given up by the check at 15 s *)
Definition ex_w : list wact := [WConnect; WTime 3000; WBack; WTime 5000; WBack; WTimer; WTime 10000; WTimer; WTime 15000].
Example C157_ex : exists s t, wrun (mk_wc 5000 10) watch0 ex_w = Some (s, t) /\ t = [EConn 0; EAgain 3000; EAgain 5000] /\ judge 5000 Down t = Some (Up 5000) /\ w_now s = 15000 /\
  exists s2, wrun (mk_wc 5000 10) s [WTimer] = Some (s2, [ECut 15000]).
Proof. do 2 eexists. split; [vm_compute; reflexivity|]. repeat (split; [vm_compute; reflexivity|]). eexists. vm_compute. reflexivity. Qed.
Example C157_ex_late : exists s, wrun (mk_wc 1000 10) watch0 [WConnect; WTime 900; WBack; WBreak; WTime 2000; WConnect; WTime 3001; WBack] = Some (s, [EConn 0; EAgain 900; EBroke 900; EConn 2000; ECut 3001]).
Proof. eexists. vm_compute. reflexivity. Qed.
(** the message that comes back is sent again at once, or the link is given up; a broken link is connected again *)
Theorem C157_back : forall c l s t, 0 <= w_max c -> 0 <= w_late c -> wrun c watch0 l = Some (s, t) ->
  (forall u, judge (w_max c) Down t = Some (Up u) -> exists s', wstep c s WBack = Some (s', [if w_now s - u <=? w_max c then EAgain (w_now s) else ECut (w_now s)])) /\
  (judge (w_max c) Down t = Some Down -> exists s', wstep c s WConnect = Some (s', [EConn (w_now s)])).
Proof.
  intros c l s t M L H. destruct (wi_run _ _ _ _ _ M L (wi_0 c) H) as [_ J]. change (view_of watch0) with Down in J. rewrite J. unfold view_of. cbn [wstep]. split.
  - intros u V. injection V as V. destruct (w_gone s); [discriminate V|]. destruct (w_conn s) eqn:C; [|discriminate V]. injection V as <-. unfold too_late. rewrite C. cbn [andb].
    rewrite Z.leb_antisym. destruct (w_max c <? w_now s - w_last s); eexists; reflexivity.
  - intros V. injection V as V. destruct (w_gone s); [discriminate V|]. destruct (w_conn s); [discriminate V|]. eexists. reflexivity.
Qed.
Print Assumptions C157_back.
