(** C31: back-pressure bounds the receive buffer and reading resumes. *)
From Coq Require Import List NArith Bool Arith Lia Permutation ZifyBool ZifyNat ZifyN.
From Verif Require Import M_FTimer M_Dispatch L_Dispatch M_RecvFlow.
Import ListNotations.
Open Scope N_scope.

(** ** at most one read, timer or check at a time, in every execution *)
(** the timer's wait, expiration or repetition that may call back *)
Definition toks (f : ft) : list N := match f_wait f with Some w => [w] | None => [] end ++ map fst (filter snd (f_q f)) ++ map snd (filter (fun x => match fst x with HAgain => true | _ => false end) (f_run f)).
Definition busy (p : rphase) : nat := match p with RIdle => O | _ => 1%nat end.
Definition tokens (s : rst) : nat := (reads s + rq s + busy (rpc s) + length (toks (rtm s)))%nat.
Lemma filter_remove_at {A} (g : A -> bool) j l x : nth_error l j = Some x -> Permutation (filter g l) ((if g x then [x] else []) ++ filter g (remove_at j l)).
Proof.
  intros N. assert (E : forall l1 l2 : list A, Permutation l1 l2 -> Permutation (filter g l1) (filter g l2)).
  { intros l1 l2 P. induction P; cbn; repeat (match goal with |- context [if ?c then _ else _] => destruct c end); try apply perm_skip; try apply perm_swap; try reflexivity; try assumption. etransitivity; eassumption. }
  rewrite (E _ _ (remove_at_perm j l x N)). cbn [filter]. destruct (g x); reflexivity.
Qed.
Lemma toks_set1 f : (length (toks (ft_set1 f)) <= length (toks f))%nat.
Proof. unfold toks, ft_set1, abort. cbn [f_wait f_q f_run]. destruct (f_wait f); [rewrite filter_app; cbn [filter snd]; rewrite app_nil_r; cbn [app length]; lia|lia]. Qed.
Lemma toks_set2 f : (length (toks (ft_set2 f)) <= S (length (toks f)))%nat.
Proof. unfold toks, ft_set2. cbn [f_wait f_q f_run]. destruct (f_wait f); cbn [app length]; lia. Qed.
Lemma toks_expire f g : ft_expire f = Some g -> length (toks g) = length (toks f).
Proof. unfold ft_expire. destruct (f_wait f) as [w|] eqn:W; [|discriminate]. intros H. inversion H; subst. unfold toks. cbn [f_wait f_q f_run]. rewrite W, filter_app. cbn [filter snd]. rewrite map_app, !app_length. cbn. lia. Qed.
Lemma toks_begin f k again g c : ft_begin f k again = Some (g, c) -> (length (toks g) + (if c && negb again then 1 else 0) <= length (toks f))%nat.
Proof.
  unfold ft_begin. destruct (nth_error (f_q f) k) as [[w ok]|] eqn:N; [|discriminate]. pose proof (Permutation_length (filter_remove_at snd k _ _ N)) as P. rewrite app_length in P. cbn [snd] in P.
  destruct (f_on f && ok) eqn:E; intros H; inversion H; subst; unfold toks; cbn [f_wait f_q f_run]; rewrite !app_length, !map_length; cbn [filter fst].
  - apply andb_prop in E as (_ & ->). cbn [length] in P. destruct again; cbn [negb andb length]; lia.
  - cbn [andb length]. destruct ok; cbn [length] in P; lia.
Qed.
Lemma toks_step f j g : ft_step f j = Some g -> (length (toks g) <= length (toks f))%nat.
Proof.
  unfold ft_step. destruct (nth_error (f_run f) j) as [[h w]|] eqn:N; [|discriminate]. pose proof (Permutation_length (filter_remove_at (fun x => match fst x with HAgain => true | _ => false end) j _ _ N)) as P. rewrite app_length in P. cbn [fst] in P.
  destruct h; [destruct (f_on f)| |]; intros H; inversion H; subst; clear H.
  - set (f1 := mk_ft true (f_no f) (f_wait f) (f_q f) (remove_at j (f_run f))). pose proof (toks_set2 (ft_set1 f1)). pose proof (toks_set1 f1). assert (S (length (toks f1)) = length (toks f)) by (unfold toks, f1; cbn [f_wait f_q f_run]; rewrite !app_length, !map_length; cbn [length] in P; lia). lia.
  - unfold toks. cbn [f_wait f_q f_run]. rewrite !app_length, !map_length. cbn [filter fst length] in *. lia.
  - unfold toks. cbn [f_wait f_q f_run]. rewrite !app_length, !map_length. destruct (same_seq w (f_no f)); cbn [filter fst length] in *; lia.
  - unfold toks. cbn [f_wait f_q f_run]. rewrite !app_length, !map_length. cbn [length] in *. lia.
Qed.
Record rinv (lim : N) (s : rst) : Prop := {
  ri_tok : (tokens s <= 1)%nat;
  ri_room : (0 < reads s + rq s)%nat -> used s < lim
}.
Lemma rinv_step lim s a s' tr : rinv lim s -> rstep lim s a = Some (s', tr) -> rinv lim s' /\ Forall (fun e => match e with RStarted u => u < lim | _ => True end) tr /\
  (reads s' <= 1)%nat /\ match a with FRead n => used s' < lim + n | _ => used s' <= used s end.
Proof.
  intros [T R] H. unfold tokens in T. unfold rstep, available in H.
  destruct a; [(destruct (rpc s) eqn:RP; try discriminate; cbn [busy] in T)|(destruct (rpc s) eqn:RP; try discriminate; cbn [busy] in T)|(destruct (rpc s) eqn:RP; try discriminate; cbn [busy] in T)|(destruct (rpc s) eqn:RP; try discriminate; cbn [busy] in T)|(destruct (rpc s) eqn:RP; try discriminate; cbn [busy] in T)| | | |].
  - destruct (rq s) as [|q] eqn:Q; [discriminate|]. inversion H; subst; clear H. assert (U : used s < lim) by (apply R; lia). split; [split; unfold tokens; cbn [used reads rq rpc rtm busy]; [lia|auto]|]. split; [repeat constructor; exact U|]. cbn. split; lia.
  - destruct (reads s) as [|r] eqn:Q; [discriminate|]. inversion H; subst; clear H. assert (U : used s < lim) by (apply R; lia). split; [split; unfold tokens; cbn [used reads rq rpc rtm busy]; [lia|lia]|]. split; [repeat constructor|]. cbn. split; lia.
  - destruct (N.ltb_spec (used s) lim) as [L|L]; inversion H; subst; clear H.
    + split; [split; unfold tokens; cbn [used reads rq rpc rtm busy]; [lia|auto]|]. split; [repeat constructor; exact L|]. cbn. split; lia.
    + split; [split; unfold tokens; cbn [used reads rq rpc rtm busy]; [lia|intros; apply R; lia]|]. split; [constructor|]. cbn. split; lia.
  - inversion H; subst; clear H. pose proof (toks_set1 (rtm s)). split; [split; unfold tokens; cbn [used reads rq rpc rtm busy]; [lia|intros; apply R; lia]|]. split; [constructor|]. cbn. split; lia.
  - inversion H; subst; clear H. pose proof (toks_set2 (rtm s)). split; [split; unfold tokens; cbn [used reads rq rpc rtm busy]; [lia|intros; apply R; lia]|]. split; [constructor|]. cbn. split; lia.
  - destruct (N.leb_spec n (used s)) as [L|L]; [|discriminate]. inversion H; subst; clear H. split; [split; unfold tokens; cbn [used reads rq rpc rtm]; [lia|intros; assert (used s < lim) by (apply R; lia); lia]|]. split; [constructor|]. cbn. split; lia.
  - destruct (ft_expire (rtm s)) as [f|] eqn:E; [|discriminate]. inversion H; subst; clear H. apply toks_expire in E. split; [split; unfold tokens; cbn [used reads rq rpc rtm]; [lia|intros; apply R; lia]|]. split; [constructor|]. cbn. split; lia.
  - destruct (ft_begin (rtm s) k (negb (used s <? lim))) as [[f c]|] eqn:E; [|discriminate]. inversion H; subst; clear H. apply toks_begin in E. destruct (N.ltb_spec (used s) lim) as [L|L].
    + cbn [negb] in E. destruct c; cbn [andb] in *; (split; [split; unfold tokens; cbn [used reads rq rpc rtm]; [lia|intros; lia]|]); (split; [constructor|]); cbn; split; lia.
    + cbn [negb] in E. rewrite andb_false_r in *. split; [split; unfold tokens; cbn [used reads rq rpc rtm]; [lia|intros; assert (used s < lim) by (apply R; lia); lia]|]. split; [constructor|]. cbn. split; lia.
  - destruct (ft_step (rtm s) j) as [f|] eqn:E; [|discriminate]. inversion H; subst; clear H. apply toks_step in E. split; [split; unfold tokens; cbn [used reads rq rpc rtm]; [lia|intros; apply R; lia]|]. split; [constructor|]. cbn. split; lia.
Qed.
(** In every execution: a read is started only when there is room, there is never more than one, and the buffer never exceeds
    the limit minus one byte plus what one read yields. *)
Theorem C31_bounded lim m l : forall s tr, 0 < lim -> Forall (fun a => match a with FRead n => n <= m | _ => True end) l -> rsteps lim r0 l = Some (s, tr) ->
  used s <= lim - 1 + m /\ (reads s <= 1)%nat /\ Forall (fun e => match e with RStarted u => u < lim | _ => True end) tr.
Proof.
  assert (G : forall s s' tr, rinv lim s -> used s <= lim - 1 + m -> (reads s <= 1)%nat -> Forall (fun a => match a with FRead n => n <= m | _ => True end) l -> rsteps lim s l = Some (s', tr) ->
    used s' <= lim - 1 + m /\ (reads s' <= 1)%nat /\ Forall (fun e => match e with RStarted u => u < lim | _ => True end) tr).
  { induction l as [|a l IH]; intros s s' tr I U R1 F H; cbn [rsteps] in H; [inversion H; subst; split; [exact U|split; [exact R1|constructor]]|].
    destruct (rstep lim s a) as [[s1 t1]|] eqn:E; [|discriminate]. destruct (rsteps lim s1 l) as [[s2 t2]|] eqn:E2; [|discriminate]. inversion H; subst. apply Forall_cons_iff in F as (FA & F). destruct (rinv_step _ _ _ _ _ I E) as (I1 & T1 & R & U1).
    destruct (IH s1 s' t2 I1 ltac:(destruct a; lia) R F E2) as (A & B & C). split; [exact A|]. split; [exact B|]. apply Forall_app. auto. }
  intros s tr L F H. refine (G r0 s tr _ _ _ F H); [split; cbn; lia|cbn; lia|cbn; lia].
Qed.
Print Assumptions C31_bounded.
Example C31_bounded_example : exists s tr, rsteps 10 r0 [FRecv; FRead 4; FCheck; FRead 12; FCheck; FSetA; FSetB; FExpire; FBegin 0; FStep 0] = Some (s, tr) /\ used s = 16 /\ reads s = 0%nat /\ tr = [RStarted 0; RGot 4; RStarted 4; RGot 12].
Proof. do 2 eexists. split; [vm_compute; reflexivity|]. repeat split. Qed.

(** ** reading resumes *)
(** Whenever there is room, a read is in progress or will be started in some continuation in which the application does nothing. *)
Definition no_drain (l : list raction) : Prop := Forall (fun a => match a with FDrain _ => False | _ => True end) l.
Definition C31_statement : Prop := forall lim l s tr, 0 < lim -> rsteps lim r0 l = Some (s, tr) -> used s < lim ->
  (0 < reads s)%nat \/ exists l2 s2 tr2, no_drain l2 /\ rsteps lim s l2 = Some (s2, tr2) /\ (0 < reads s2)%nat.
(** False: the timer may be started while the handler of its last expiration has not returned yet, which then marks it as
    cancelled; nothing is ever read again. *)
Definition rdead (s : rst) : Prop := reads s = O /\ rq s = O /\ rpc s = RIdle /\ f_on (rtm s) = false.
Lemma rdead_step lim s a s' tr : rdead s -> rstep lim s a = Some (s', tr) -> rdead s'.
Proof.
  intros (A & B & C & D) H. unfold rstep in H. rewrite A, B, C in H. destruct a; try discriminate.
  - destruct (n <=? used s); [|discriminate]. inversion H; subst. repeat split; assumption.
  - unfold ft_expire in H. destruct (f_wait (rtm s)); [|discriminate]. inversion H; subst. repeat split; assumption.
  - unfold ft_begin in H. destruct (nth_error (f_q (rtm s)) k) as [[w ok]|]; [|discriminate]. rewrite D in H. cbn [andb] in H. inversion H; subst. repeat split; assumption.
  - unfold ft_step in H. destruct (nth_error (f_run (rtm s)) j) as [[h w]|]; [|discriminate]. rewrite D in H. destruct h; inversion H; subst; repeat split.
Qed.
Lemma rdead_forever lim l : forall s s' tr, rdead s -> rsteps lim s l = Some (s', tr) -> rdead s'.
Proof.
  induction l as [|a l IH]; intros s s' tr D H; cbn [rsteps] in H; [inversion H; subst; exact D|]. destruct (rstep lim s a) as [[s1 t1]|] eqn:E; [|discriminate]. destruct (rsteps lim s1 l) as [[s2 t2]|] eqn:E2; [|discriminate]. inversion H; subst. exact (IH _ _ _ (rdead_step _ _ _ _ _ D E) E2).
Qed.
Theorem C31_resume_refuted : exists l s tr, rsteps 10 r0 l = Some (s, tr) /\ used s = 0 /\ reads s = O /\
  forall l2 s2 tr2, rsteps 10 s l2 = Some (s2, tr2) -> reads s2 = O.
Proof.
  exists [FRecv; FRead 12; FCheck; FSetA; FSetB; FDrain 12; FExpire; FBegin 0; FRecv; FRead 10; FCheck; FSetA; FStep 0; FStep 0; FSetB; FDrain 10].
  do 2 eexists. split; [vm_compute; reflexivity|]. split; [reflexivity|]. split; [reflexivity|]. intros l2 s2 tr2 H. eapply (rdead_forever 10 l2) in H; [exact (proj1 H)|]. repeat split.
Qed.
Print Assumptions C31_resume_refuted.
Theorem C31_statement_refuted : ~ C31_statement.
Proof. intros H. destruct C31_resume_refuted as (l & s & tr & R & U & Z & D). destruct (H 10 l s tr ltac:(lia) R ltac:(lia)) as [X|(l2 & s2 & tr2 & _ & R2 & P)]; [lia|]. rewrite (D _ _ _ R2) in P. lia. Qed.
Print Assumptions C31_statement_refuted.

(** It holds if the timer is not started while one of its handlers runs and the handlers do not run while it is being started
    (which a single service thread guarantees). *)
Definition is_rset2 (p : rphase) : bool := match p with RSet2 => true | _ => false end.
Definition rcalm (s : rst) (a : raction) : bool :=
  match a with
  | FSetA => match f_run (rtm s) with [] => true | _ => false end
  | FBegin _ | FStep _ => negb (is_rset2 (rpc s))
  | _ => true
  end.
Fixpoint rcalms (lim : N) (s : rst) (l : list raction) : bool :=
  match l with
  | [] => true
  | a :: l' => rcalm s a && match rstep lim s a with Some (s1, _) => rcalms lim s1 l' | None => true end
  end.
Definition not_again (x : hphase * N) : Prop := fst x <> HAgain.
Record rcinv (lim : N) (s : rst) : Prop := {
  rc_inv : rinv lim s;
  rc_one : tokens s = 1%nat;
  rc_ok : Forall (fun x => snd x = true) (f_q (rtm s));
  rc_on : toks (rtm s) <> [] -> f_on (rtm s) = true;
  rc_set2 : rpc s = RSet2 -> f_on (rtm s) = true /\ f_run (rtm s) = [];
  rc_run : toks (rtm s) <> [] -> Forall (fun x => fst x = HAgain) (f_run (rtm s))
}.
Lemma toks_nil f : toks f = [] -> f_wait f = None /\ (Forall (fun x => snd x = true) (f_q f) -> f_q f = []) /\ Forall not_again (f_run f).
Proof.
  unfold toks. intros H. apply app_eq_nil in H as (A & H). apply app_eq_nil in H as (B & C). split; [destruct (f_wait f); [discriminate|reflexivity]|]. split.
  - intros F. destruct (f_q f) as [|[w ok] q]; [reflexivity|]. apply Forall_cons_iff in F as (O & _). cbn in O. subst ok. discriminate.
  - induction (f_run f) as [|[h w] r IH]; [constructor|]. cbn [filter fst] in C. destruct h; [discriminate| |]; (constructor; [discriminate|apply IH; exact C]).
Qed.
Lemma toks_len_nil f : length (toks f) = O -> toks f = [].
Proof. destruct (toks f); [reflexivity|discriminate]. Qed.
Lemma quiet_toks f : f_wait f = None -> f_q f = [] -> Forall not_again (f_run f) -> toks f = [].
Proof. intros A B C. unfold toks. rewrite A, B. cbn [app map filter]. induction (f_run f) as [|[h w] r IH]; [reflexivity|]. apply Forall_cons_iff in C as (C1 & C). cbn [filter fst]. unfold not_again in C1. cbn in C1. destruct h; [congruence| |]; apply IH; exact C. Qed.
Lemma Forall_ra {A} (P : A -> Prop) : forall l j, Forall P l -> Forall P (remove_at j l).
Proof.
  unfold remove_at. induction l as [|x l IH]; intros j F; [destruct j; constructor|]. inversion F; subst. destruct j as [|j]; cbn [firstn skipn app]; [assumption|]. constructor; [assumption|]. exact (IH j H2).
Qed.
Lemma rcinv_step lim s a s' tr : rcinv lim s -> rcalm s a = true -> rstep lim s a = Some (s', tr) -> rcinv lim s'.
Proof.
  intros [I ONE OK ON S2 RN] CA H. pose proof (proj1 (rinv_step _ _ _ _ _ I H)) as I'. unfold tokens in ONE. unfold rstep, available in H.
  destruct a; cbn [rcalm] in CA; [(destruct (rpc s) eqn:RP; try discriminate; cbn [busy] in ONE)|(destruct (rpc s) eqn:RP; try discriminate; cbn [busy] in ONE)|(destruct (rpc s) eqn:RP; try discriminate; cbn [busy] in ONE)|(destruct (rpc s) eqn:RP; try discriminate; cbn [busy] in ONE)|(destruct (rpc s) eqn:RP; try discriminate; cbn [busy] in ONE)| | | |].
  - destruct (rq s) as [|q] eqn:Q; [discriminate|]. inversion H; subst; clear H. split; unfold tokens; cbn [used reads rq rpc rtm busy]; try assumption; try discriminate; lia.
  - destruct (reads s) as [|r] eqn:Q; [discriminate|]. inversion H; subst; clear H. split; unfold tokens; cbn [used reads rq rpc rtm busy]; try assumption; try discriminate; lia.
  - destruct (used s <? lim); inversion H; subst; clear H; (split; unfold tokens; cbn [used reads rq rpc rtm busy]; try assumption; try discriminate; lia).
  - destruct (f_run (rtm s)) as [|x r] eqn:FR; [|discriminate]. inversion H; subst; clear H. assert (TN : toks (rtm s) = []) by (apply toks_len_nil; lia). destruct (toks_nil _ TN) as (W & Q & _). specialize (Q OK).
    assert (T1 : toks (ft_set1 (rtm s)) = []) by (apply quiet_toks; unfold ft_set1, abort; cbn [f_wait f_q f_run]; rewrite ?W, ?FR; [reflexivity|exact Q|constructor]).
    split; unfold tokens; cbn [used reads rq rpc rtm busy]; try assumption; try (rewrite T1; cbn [length]; lia); try congruence.
    + unfold ft_set1, abort. cbn [f_q]. rewrite W, Q. constructor.
    + intros _. unfold ft_set1. cbn [f_on f_run]. auto.
  - inversion H; subst; clear H. assert (TN : toks (rtm s) = []) by (apply toks_len_nil; lia). destruct (toks_nil _ TN) as (W & Q & _). specialize (Q OK). destruct (S2 eq_refl) as (S2a & S2b).
    assert (T1 : toks (ft_set2 (rtm s)) = [f_no (rtm s) + 1]) by (unfold toks, ft_set2; cbn [f_wait f_q f_run]; rewrite Q, S2b; reflexivity).
    split; unfold tokens; cbn [used reads rq rpc rtm busy]; try assumption; try discriminate; [rewrite T1; cbn [length]; lia|intros _; exact S2a|intros _; unfold ft_set2; cbn [f_run]; rewrite S2b; constructor].
  - destruct (N.leb_spec n (used s)) as [L|L]; [|discriminate]. inversion H; subst; clear H. split; unfold tokens; cbn [used reads rq rpc rtm]; assumption.
  - destruct (ft_expire (rtm s)) as [f|] eqn:E; [|discriminate]. inversion H; subst; clear H. pose proof (toks_expire _ _ E) as TE. unfold ft_expire in E. destruct (f_wait (rtm s)) as [w|] eqn:W; [|discriminate].
    assert (NE : toks (rtm s) <> []) by (unfold toks; rewrite W; discriminate). inversion E; subst f; clear E.
    split; unfold tokens; cbn [used reads rq rpc rtm f_on f_q f_run]; try assumption; [rewrite TE; exact ONE|apply Forall_app; split; [exact OK|repeat constructor]|intros _; apply ON; exact NE|intros _; apply RN; exact NE].
  - apply negb_true_iff in CA. unfold ft_begin in H. destruct (nth_error (f_q (rtm s)) k) as [[w ok]|] eqn:NK; [|discriminate].
    assert (OKT : ok = true) by (apply nth_error_In in NK; rewrite Forall_forall in OK; exact (OK _ NK)). subst ok.
    pose proof (Permutation_length (filter_remove_at snd k _ _ NK)) as P. rewrite app_length in P. cbn [snd length] in P.
    assert (NE : toks (rtm s) <> []). { unfold toks. intros X. apply (f_equal (@length N)) in X. rewrite !app_length, !map_length in X. cbn [length] in X. lia. }
    rewrite (ON NE) in H. cbn [andb] in H. pose proof (RN NE) as RA.
    assert (LT : length (toks (rtm s)) = 1%nat) by (destruct (toks (rtm s)) as [|x [|y t]]; [congruence|reflexivity|cbn [length] in ONE; lia]). pose proof LT as LT0. unfold toks in LT. rewrite !app_length, !map_length in LT.
    assert (W : f_wait (rtm s) = None) by (destruct (f_wait (rtm s)); [cbn [length] in LT; lia|reflexivity]).
    assert (RE : f_run (rtm s) = []). { destruct (f_run (rtm s)) as [|[h v] r] eqn:FR; [reflexivity|]. apply Forall_cons_iff in RA as (HA & _). cbn in HA. subst h. cbn [filter fst length] in LT. lia. }
    assert (QE : remove_at k (f_q (rtm s)) = []). { pose proof (Forall_ra _ _ k OK) as FO. destruct (remove_at k (f_q (rtm s))) as [|[v o] q]; [reflexivity|]. apply Forall_cons_iff in FO as (HO & _). cbn in HO. subst o. cbn [filter snd length] in P. lia. }
    rewrite W, RE, QE in H. inversion H; subst; clear H. destruct (used s <? lim) eqn:UL; cbn [negb andb] in *.
    + assert (TG : toks {| f_on := true; f_no := f_no (rtm s); f_wait := None; f_q := []; f_run := [(HSeq, w)] |} = []) by reflexivity.
      split; unfold tokens; cbn [used reads rq rpc rtm f_on f_q f_run]; try assumption; [rewrite TG; cbn [length]; lia|constructor|congruence|intros X; rewrite X in CA; discriminate|congruence].
    + assert (TG : toks {| f_on := true; f_no := f_no (rtm s); f_wait := None; f_q := []; f_run := [(HAgain, w)] |} = [w]) by reflexivity.
      split; unfold tokens; cbn [used reads rq rpc rtm f_on f_q f_run]; try assumption; [rewrite TG; cbn [length]; lia|constructor|reflexivity|intros X; rewrite X in CA; discriminate|intros _; repeat constructor].
  - apply negb_true_iff in CA. destruct (ft_step (rtm s) j) as [f|] eqn:E; [|discriminate]. inversion H; subst; clear H. unfold ft_step in E. destruct (nth_error (f_run (rtm s)) j) as [[h w]|] eqn:NJ; [|discriminate].
    pose proof (Permutation_length (filter_remove_at (fun x => match fst x with HAgain => true | _ => false end) j _ _ NJ)) as P. rewrite app_length in P. cbn [fst] in P.
    assert (CASE : h = HAgain \/ toks (rtm s) = []). { destruct (toks (rtm s)) eqn:T; [right; reflexivity|]. left. assert (NE : n :: l <> []) by discriminate. specialize (RN NE). apply nth_error_In in NJ. rewrite Forall_forall in RN. exact (RN _ NJ). }
    destruct CASE as [->|TN].
    + assert (NE : toks (rtm s) <> []). { unfold toks. intros X. apply (f_equal (@length N)) in X. rewrite !app_length, !map_length in X. cbn [length] in *. lia. }
      rewrite (ON NE) in E. pose proof (RN NE) as RA. assert (LT : length (toks (rtm s)) = 1%nat) by (destruct (toks (rtm s)) as [|x [|y t]]; [congruence|reflexivity|cbn [length] in ONE; lia]). pose proof LT as LT0. unfold toks in LT. rewrite !app_length, !map_length in LT. cbn [length] in P.
      assert (W : f_wait (rtm s) = None) by (destruct (f_wait (rtm s)); [cbn [length] in LT; lia|reflexivity]).
      assert (QE : f_q (rtm s) = []). { destruct (f_q (rtm s)) as [|[v o] q] eqn:FQ; [reflexivity|]. apply Forall_cons_iff in OK as (HO & _). cbn in HO. subst o. cbn [filter snd length] in LT. lia. }
      assert (RE : remove_at j (f_run (rtm s)) = []). { pose proof (Forall_ra _ _ j RA) as FO. destruct (remove_at j (f_run (rtm s))) as [|[h v] r]; [reflexivity|]. apply Forall_cons_iff in FO as (HO & _). cbn in HO. subst h. cbn [filter fst length] in P. lia. }
      rewrite W, QE, RE in E. inversion E; subst f; clear E. unfold ft_set2, ft_set1, abort. cbn [f_wait f_q f_run f_no f_on].
      assert (TG : forall n, toks {| f_on := true; f_no := n; f_wait := Some n; f_q := []; f_run := [] |} = [n]) by reflexivity.
      split; unfold tokens; cbn [used reads rq rpc rtm f_on f_q f_run]; try assumption; [rewrite TG; cbn [length]; lia|constructor|reflexivity|intros X; rewrite X in CA; discriminate|intros _; constructor].
    + destruct (toks_nil _ TN) as (W & Q & NA). specialize (Q OK). assert (HA : h <> HAgain) by (apply nth_error_In in NJ; rewrite Forall_forall in NA; exact (NA _ NJ)). pose proof (Forall_ra _ _ j NA) as NR.
      assert (TF : toks f = [] /\ f_q f = []). { destruct h; [congruence| |]; inversion E; subst f; (split; [|exact Q]); apply quiet_toks; cbn [f_wait f_q f_run]; try assumption. destruct (same_seq w (f_no (rtm s))); [constructor; [discriminate|exact NR]|exact NR]. }
      destruct TF as (TF & FQ). split; unfold tokens; cbn [used reads rq rpc rtm]; try assumption; [rewrite TF; rewrite TN in ONE; exact ONE|rewrite FQ; constructor|congruence|intros X; rewrite X in CA; discriminate|congruence].
Qed.
Lemma rcinv_steps lim l : forall s s' tr, rcinv lim s -> rcalms lim s l = true -> rsteps lim s l = Some (s', tr) -> rcinv lim s'.
Proof.
  induction l as [|a l IH]; intros s s' tr I C H; cbn [rsteps rcalms] in *; [inversion H; subst; exact I|]. apply andb_prop in C as (C1 & C2). destruct (rstep lim s a) as [[s1 t1]|] eqn:E; [|discriminate]. destruct (rsteps lim s1 l) as [[s2 t2]|] eqn:E2; [|discriminate]. inversion H; subst. exact (IH _ _ _ (rcinv_step _ _ _ _ _ I C1 E) C2 E2).
Qed.
Definition resumes (lim : N) (s : rst) : Prop := exists l2 s2 tr2, no_drain l2 /\ rcalms lim s l2 = true /\ rsteps lim s l2 = Some (s2, tr2) /\ (0 < reads s2)%nat.
Lemma resumes_step lim s a s1 t1 : (match a with FDrain _ => False | _ => True end) -> rcalm s a = true -> rstep lim s a = Some (s1, t1) -> resumes lim s1 -> resumes lim s.
Proof. intros ND C E (l2 & s2 & tr2 & N2 & C2 & R & P). exists (a :: l2), s2, (t1 ++ tr2). cbn [rcalms rsteps]. rewrite C, E, R. split; [constructor; assumption|]. split; [exact C2|]. split; [reflexivity|exact P]. Qed.
Lemma resumes_rq lim s : rpc s = RIdle -> (0 < rq s)%nat -> resumes lim s.
Proof. intros P Q. destruct (rq s) as [|q] eqn:E; [lia|]. exists [FRecv]. do 2 eexists. cbn [rcalms rsteps rcalm andb]. assert (ST : rstep lim s FRecv = Some (mk_r (used s) (S (reads s)) q RIdle (rtm s), [RStarted (used s)])) by (unfold rstep; rewrite P, E; reflexivity). rewrite ST. split; [repeat constructor|]. split; [reflexivity|]. split; [reflexivity|]. cbn. lia. Qed.
Lemma resumes_q lim s : rcinv lim s -> rpc s = RIdle -> used s < lim -> f_q (rtm s) <> [] -> resumes lim s.
Proof.
  intros I P U Q. destruct (f_q (rtm s)) as [|[w ok] q] eqn:FQ; [congruence|]. pose proof (rc_ok _ _ I) as OK. rewrite FQ in OK. apply Forall_cons_iff in OK as (O & _). cbn in O. subst ok.
  assert (NE : toks (rtm s) <> []). { unfold toks. rewrite FQ. cbn. destruct (f_wait (rtm s)); discriminate. }
  assert (ST : exists f, rstep lim s (FBegin 0) = Some (mk_r (used s) (reads s) (S (rq s)) (rpc s) f, [])).
  { unfold rstep, available, ft_begin. rewrite FQ. cbn [nth_error]. rewrite (rc_on _ _ I NE). cbn [andb]. destruct (N.ltb_spec (used s) lim); [|lia]. cbn [andb]. eexists. destruct (rpc s); try discriminate. reflexivity. }
  destruct ST as (f & ST). eapply resumes_step; [|  |exact ST|]; [exact Logic.I|cbn [rcalm]; rewrite P; reflexivity|]. apply resumes_rq; cbn; [exact P|lia].
Qed.
Lemma resumes_wait lim s : rcinv lim s -> rpc s = RIdle -> used s < lim -> f_wait (rtm s) <> None -> resumes lim s.
Proof.
  intros I P U W. destruct (f_wait (rtm s)) as [w|] eqn:FW; [|congruence].
  assert (ST : rstep lim s FExpire = Some (mk_r (used s) (reads s) (rq s) (rpc s) (mk_ft (f_on (rtm s)) (f_no (rtm s)) None (f_q (rtm s) ++ [(w, true)]) (f_run (rtm s))), [])) by (unfold rstep, ft_expire; rewrite FW; destruct (rpc s); reflexivity).
  eapply resumes_step; [| |exact ST|]; [exact Logic.I|reflexivity|]. apply resumes_q; cbn; [eapply rcinv_step; [exact I| |exact ST]; reflexivity|exact P|exact U|destruct (f_q (rtm s)); discriminate].
Qed.
Lemma resumes_set2 lim s : rcinv lim s -> rpc s = RSet2 -> used s < lim -> resumes lim s.
Proof.
  intros I P U. assert (ST : rstep lim s FSetB = Some (mk_r (used s) (reads s) (rq s) RIdle (ft_set2 (rtm s)), [])) by (unfold rstep; rewrite P; reflexivity).
  eapply resumes_step; [| |exact ST|]; [exact Logic.I|reflexivity|]. apply resumes_wait; cbn; [eapply rcinv_step; [exact I| |exact ST]; reflexivity|reflexivity|exact U|discriminate].
Qed.
Definition weight (r : list (hphase * N)) : nat := (length r + length (filter (fun x => match fst x with HSeq => true | _ => false end) r))%nat.
Lemma resumes_set1 lim n : forall s, (weight (f_run (rtm s)) <= n)%nat -> rcinv lim s -> rpc s = RSet1 -> used s < lim -> resumes lim s.
Proof.
  unfold weight. induction n as [|n IH]; intros s L I P U.
  - assert (FR : f_run (rtm s) = []) by (destruct (f_run (rtm s)); [reflexivity|cbn in L; lia]).
    assert (ST : rstep lim s FSetA = Some (mk_r (used s) (reads s) (rq s) RSet2 (ft_set1 (rtm s)), [])) by (unfold rstep; rewrite P; reflexivity). assert (CA : rcalm s FSetA = true) by (cbn [rcalm]; rewrite FR; reflexivity).
    eapply resumes_step; [| |exact ST|]; [exact Logic.I|exact CA|]. apply resumes_set2; [eapply rcinv_step; [exact I|exact CA|exact ST]|reflexivity|exact U].
  - destruct (f_run (rtm s)) as [|[h w] r] eqn:FR; [apply IH; try assumption; rewrite FR; cbn; lia|].
    assert (TN : toks (rtm s) = []) by (apply toks_len_nil; pose proof (rc_one _ _ I) as O; unfold tokens in O; rewrite P in O; cbn [busy] in O; lia). destruct (toks_nil _ TN) as (_ & _ & NA). rewrite FR in NA. apply Forall_cons_iff in NA as (HA & _). unfold not_again in HA. cbn in HA.
    assert (X : exists f, ft_step (rtm s) 0 = Some f /\ (weight (f_run f) <= n)%nat).
    { unfold ft_step. rewrite FR. cbn [nth_error]. change (remove_at 0 ((h, w) :: r)) with r. unfold weight. cbn [length filter fst] in L. destruct h; [congruence| |]; eexists; (split; [reflexivity|]); cbn [f_run]; [destruct (same_seq w (f_no (rtm s))); cbn in *; lia|lia]. }
    destruct X as (f & X & LW). assert (ST : rstep lim s (FStep 0) = Some (mk_r (used s) (reads s) (rq s) (rpc s) f, [])) by (unfold rstep; rewrite X; destruct (rpc s); reflexivity). assert (CA : rcalm s (FStep 0) = true) by (cbn [rcalm]; rewrite P; reflexivity).
    eapply resumes_step; [| |exact ST|]; [exact Logic.I|exact CA|]. apply IH; [exact LW|eapply rcinv_step; [exact I|exact CA|exact ST]|exact P|exact U].
Qed.
Theorem C31_resumes_partial lim l s tr : 0 < lim -> rcalms lim r0 l = true -> rsteps lim r0 l = Some (s, tr) -> used s < lim ->
  (0 < reads s)%nat \/ exists l2 s2 tr2, no_drain l2 /\ rcalms lim s l2 = true /\ rsteps lim s l2 = Some (s2, tr2) /\ (0 < reads s2)%nat.
Proof.
  intros LP C H U. assert (I : rcinv lim s). { eapply rcinv_steps; [|exact C|exact H]. split; [split; cbn; lia|reflexivity|constructor|cbn; congruence|discriminate|cbn; congruence]. }
  pose proof (rc_one _ _ I) as ONE. unfold tokens in ONE. destruct (reads s) as [|r] eqn:R; [|left; lia]. right. change (resumes lim s). destruct (rpc s) eqn:P; cbn [busy] in ONE.
  - destruct (rq s) as [|q] eqn:Q; [|apply resumes_rq; [exact P|lia]].
    destruct (f_wait (rtm s)) eqn:W; [apply resumes_wait; congruence|]. destruct (f_q (rtm s)) eqn:FQ; [|apply resumes_q; congruence].
    assert (NE : toks (rtm s) <> []) by (intros X; rewrite X in ONE; discriminate). pose proof (rc_run _ _ I NE) as RA. pose proof (rc_on _ _ I NE) as ON.
    destruct (f_run (rtm s)) as [|[h w] r] eqn:FR; [exfalso; apply NE; unfold toks; rewrite W, FQ, FR; reflexivity|]. apply Forall_cons_iff in RA as (HA & _). cbn in HA. subst h.
    assert (ST : rstep lim s (FStep 0) = Some (mk_r (used s) (reads s) (rq s) (rpc s) (ft_set2 (ft_set1 (mk_ft (f_on (rtm s)) (f_no (rtm s)) (f_wait (rtm s)) (f_q (rtm s)) r))), [])) by (unfold rstep, ft_step; rewrite FR; cbn [nth_error]; rewrite ON; destruct (rpc s); reflexivity).
    assert (CA : rcalm s (FStep 0) = true) by (cbn [rcalm]; rewrite P; reflexivity). eapply resumes_step; [| |exact ST|]; [exact Logic.I|exact CA|]. apply resumes_wait; cbn; [eapply rcinv_step; [exact I|exact CA|exact ST]|exact P|exact U|discriminate].
  - exists [FCheck]. do 2 eexists. cbn [rcalms rsteps rcalm andb]. assert (ST : rstep lim s FCheck = Some (mk_r (used s) (S (reads s)) (rq s) RIdle (rtm s), [RStarted (used s)])) by (unfold rstep, available; rewrite P; destruct (N.ltb_spec (used s) lim); [reflexivity|lia]).
    rewrite ST. split; [repeat constructor|]. split; [reflexivity|]. split; [reflexivity|]. cbn. lia.
  - eapply resumes_set1; eauto.
  - apply resumes_set2; assumption.
Qed.
Print Assumptions C31_resumes_partial.
Example C31_example : exists s tr, let l := [FRecv; FRead 12; FCheck; FSetA; FSetB; FExpire; FBegin 0; FStep 0; FDrain 12] in rsteps 10 r0 l = Some (s, tr) /\ rcalms 10 r0 l = true /\ used s = 0 /\ reads s = 0%nat.
Proof. do 2 eexists. split; [vm_compute; reflexivity|]. split; [vm_compute; reflexivity|]. split; reflexivity. Qed.
