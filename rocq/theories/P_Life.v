(** C33: on_close runs exactly once per start, after all asynchronous calls; C34: starting and closing never deadlock. *)
From Coq Require Import List NArith Bool Arith Lia Permutation ZifyBool ZifyNat ZifyN.
From Verif Require Import M_FTimer M_Dispatch L_Dispatch M_Life.
Import ListNotations.
Open Scope N_scope.

(** ** counting *)
Definition cnt {A} (f : A -> bool) (l : list A) : nat := length (filter f l).
Definition b2n (b : bool) : nat := if b then 1%nat else O.
Lemma cnt_app {A} (f : A -> bool) l1 l2 : cnt f (l1 ++ l2) = (cnt f l1 + cnt f l2)%nat.
Proof. unfold cnt. rewrite filter_app, app_length. reflexivity. Qed.
Lemma cnt_cons {A} (f : A -> bool) x l : cnt f (x :: l) = (b2n (f x) + cnt f l)%nat.
Proof. unfold cnt. cbn [filter]. destruct (f x); reflexivity. Qed.
Lemma cnt_upd {A} (f : A -> bool) i (x : option A) l y : nth_error l i = Some y -> (cnt f (upd i x l) + b2n (f y) = cnt f l + match x with Some z => b2n (f z) | None => 0 end)%nat.
Proof.
  unfold upd. revert i. induction l as [|a l IH]; intros [|i] H; try discriminate.
  - inversion H; subst. cbn [firstn skipn app]. rewrite cnt_cons. destruct x; [cbn [app]; rewrite cnt_cons; lia|cbn [app]; lia].
  - cbn [nth_error] in H. specialize (IH i H). cbn [firstn skipn app]. rewrite !cnt_cons. change (skipn (S i) (a :: l)) with (skipn i l). cbn [skipn] in *. lia.
Qed.
Lemma cnt_true {A} (l : list A) : cnt (fun _ => true) l = length l.
Proof. induction l as [|a l IH]; [reflexivity|]. rewrite cnt_cons, IH. reflexivity. Qed.
Lemma len_upd {A} i (x : option A) l y : nth_error l i = Some y -> (length (upd i x l) + 1 = length l + match x with Some _ => 1 | None => 0 end)%nat.
Proof. intros H. pose proof (cnt_upd (fun _ => true) i x l y H) as E. rewrite !cnt_true in E. cbn [b2n] in E. destruct x; exact E. Qed.
Lemma cnt_rem {A} (f : A -> bool) k l y : nth_error l k = Some y -> cnt f l = (b2n (f y) + cnt f (remove_at k l))%nat.
Proof. intros H. pose proof (cnt_upd f k None l y H) as E. unfold upd in E. cbn [app] in E. unfold remove_at. lia. Qed.
Lemma cnt_le {A} (f : A -> bool) l : (cnt f l <= length l)%nat.
Proof. rewrite <- cnt_true. induction l as [|a l IH]; [reflexivity|]. rewrite !cnt_cons. destruct (f a); cbn [b2n]; lia. Qed.
Lemma cnt_pos {A} (f : A -> bool) l : (0 < cnt f l)%nat -> exists i y, nth_error l i = Some y /\ f y = true.
Proof.
  induction l as [|a l IH]; [cbn; lia|]. rewrite cnt_cons. destruct (f a) eqn:F; [exists O, a; auto|]. cbn [b2n]. intros H. destruct (IH ltac:(lia)) as (i & y & N & Y). exists (S i), y. auto.
Qed.
Lemma cnt_nth {A} (f : A -> bool) l i y : nth_error l i = Some y -> f y = true -> (0 < cnt f l)%nat.
Proof. intros N Y. rewrite (cnt_rem f i l y N), Y. cbn [b2n]. lia. Qed.

(** ** the life cycle as seen from outside *)
Inductive phase : Type := Off | On | Closing.
Definition next (p : phase) (e : lev) : option phase :=
  match p, e with Off, EvStarted => Some On | On, EvClosed => Some Closing | Closing, EvOnClose => Some Off | _, _ => None end.
Fixpoint life (p : phase) (tr : list lev) : option phase :=
  match tr with [] => Some p | e :: tr' => match next p e with Some p' => life p' tr' | None => None end end.
Lemma life_app t1 : forall t2 p, life p (t1 ++ t2) = match life p t1 with Some p' => life p' t2 | None => None end.
Proof. induction t1 as [|e t1 IH]; intros t2 p; [reflexivity|]. cbn [app life]. destruct (next p e); [apply IH|reflexivity]. Qed.

(** ** on_close at most once per shutdown, in every execution *)
Definition tokc (p : lphase) : bool := match p with LStop | LTim1 | LTim2 => true | _ => false end.
Definition tokb (x : cphase * N) : bool := match fst x with CTest | COn | CAgain => true | _ => false end.
Definition w1 (o : option N) : nat := match o with Some _ => 1%nat | None => O end.
Definition ttok (s : lst) : nat := (w1 (l_wait s) + cnt snd (l_q s) + cnt tokb (l_cbs s))%nat.
Definition tokens (s : lst) : nat := (cnt tokc (l_closes s) + ttok s)%nat.
Definition is_closed (e : lev) : bool := match e with EvClosed => true | _ => false end.
Definition is_onclose (e : lev) : bool := match e with EvOnClose => true | _ => false end.
Ltac lf := cbn [l_started l_lock l_starts l_closes l_on l_no l_wait l_q l_cbs l_ops l_need l_obs set_starts set_closes set_lock set_started set_ops set_cbs set_on set_obs set_need set_timer tim1 tim2] in *.
Lemma cancelled_cnt s : cnt snd (cancelled s) = cnt snd (l_q s).
Proof. unfold cancelled. destruct (l_wait s); [|reflexivity]. rewrite cnt_app. unfold cnt at 2. cbn. lia. Qed.
Lemma stop_ttok s : (ttok (tim_stop s) <= ttok s)%nat.
Proof. unfold tim_stop, ttok. destruct (l_on s); [|lia]. lf. rewrite cancelled_cnt. cbn [w1]. lia. Qed.
Lemma stop_closes s : l_closes (tim_stop s) = l_closes s.
Proof. unfold tim_stop. destruct (l_on s); reflexivity. Qed.
Lemma tok_step s a s' tr : lstep s a = Some (s', tr) -> (cnt is_onclose tr + tokens s' <= cnt is_closed tr + tokens s)%nat.
Proof.
  unfold tokens, ttok. intros H. destruct a; cbn [lstep] in H.
  - inversion H; subst; clear H. lf. reflexivity.
  - unfold sstep in H. destruct (nth_error (l_starts s) i) as [p|]; [|discriminate]. destruct p; try (inversion H; subst; clear H; destruct (l_lock s); lf; cbn; lia).
    + destruct (l_lock s); [discriminate|]. inversion H; subst. lf. cbn. lia.
    + inversion H; subst; clear H. lf. destruct ok0; cbn; lia.
  - destruct (nth_error (l_starts s) i) as [[]|]; try discriminate. inversion H; subst. lf. cbn. lia.
  - inversion H; subst; clear H. lf. rewrite cnt_app. cbn. lia.
  - unfold cstep in H. destruct (nth_error (l_closes s) i) as [p|] eqn:N; [|discriminate]. destruct p.
    + destruct (l_lock s); [discriminate|]. inversion H; subst; clear H. lf. pose proof (cnt_upd tokc i (Some LTest) _ _ N). cbn [tokc b2n] in *. cbn. lia.
    + inversion H; subst; clear H. lf. pose proof (cnt_upd tokc i (Some (if l_started s then LSet else LRel)) _ _ N). destruct (l_started s); cbn [tokc b2n] in *; cbn; lia.
    + inversion H; subst; clear H. lf. pose proof (cnt_upd tokc i (Some LStop) _ _ N). cbn [tokc b2n] in *. cbn. lia.
    + inversion H; subst; clear H. pose proof (stop_ttok (set_closes s (upd i (Some LTim1) (l_closes s)))) as S. unfold ttok in S. rewrite stop_closes. lf. pose proof (cnt_upd tokc i (Some LTim1) _ _ N). cbn [tokc b2n] in *. cbn. lia.
    + inversion H; subst; clear H. lf. change (cancelled (set_closes s (upd i (Some LTim2) (l_closes s)))) with (cancelled s). rewrite cancelled_cnt. pose proof (cnt_upd tokc i (Some LTim2) _ _ N). cbn [tokc b2n w1] in *. cbn. lia.
    + inversion H; subst; clear H. lf. pose proof (cnt_upd tokc i (Some LRel) _ _ N). cbn [tokc b2n w1] in *. cbn. lia.
    + inversion H; subst; clear H. lf. pose proof (cnt_upd tokc i None _ _ N). cbn [tokc b2n w1] in *. cbn. lia.
  - inversion H; subst. lf. cbn. lia.
  - destruct (l_ops s); [discriminate|]. inversion H; subst. lf. cbn. lia.
  - destruct (l_ops s); [discriminate|]. inversion H; subst. lf. cbn. lia.
  - destruct (l_wait s); [|discriminate]. inversion H; subst. lf. rewrite cnt_app, cnt_cons. cbn [w1 snd b2n]. cbn. lia.
  - destruct (nth_error (l_q s) k) as [[w ok]|] eqn:N; [|discriminate]. inversion H; subst; clear H. lf. pose proof (cnt_rem snd _ _ _ N) as R. cbn [snd] in R. rewrite cnt_app, cnt_cons. destruct (l_on s), ok; cbn [andb tokb fst b2n] in *; cbn; lia.
  - unfold bstep in H. destruct (nth_error (l_cbs s) j) as [[p w]|] eqn:N; [|discriminate]. destruct p.
    + inversion H; subst; clear H. lf. pose proof (cnt_upd tokb j (Some (if (calls s =? 1)%nat then COn else CAgain, w)) _ _ N). destruct (calls s =? 1)%nat; cbn [tokb fst b2n] in *; cbn; lia.
    + inversion H; subst; clear H. lf. pose proof (cnt_upd tokb j (Some (CCancel, w)) _ _ N). cbn [tokb fst b2n] in *. cbn. lia.
    + inversion H; subst; clear H. lf. pose proof (cnt_upd tokb j (Some (CAfter, w)) _ _ N). cbn [tokb fst b2n] in *. cbn. lia.
    + inversion H; subst; clear H. pose proof (cnt_upd tokb j (Some (CObs, w)) _ _ N). destruct (l_need s); lf; cbn [tokb fst b2n] in *; cbn; lia.
    + inversion H; subst; clear H. lf. pose proof (cnt_upd tokb j (Some (CSeq, w)) _ _ N). cbn [tokb fst b2n] in *. cbn. lia.
    + inversion H; subst; clear H. pose proof (cnt_upd tokb j None _ _ N). pose proof (cnt_upd tokb j (Some (CSeq, w)) _ _ N). destruct (l_on s); lf; cbn [tokb fst b2n w1] in *; [change (cancelled (set_cbs s (upd j None (l_cbs s)))) with (cancelled s); rewrite cancelled_cnt|]; cbn; lia.
    + inversion H; subst; clear H. lf. pose proof (cnt_upd tokb j None _ _ N). pose proof (cnt_upd tokb j (Some (COff, w)) _ _ N). destruct (same_seq w (l_no s)); cbn [tokb fst b2n w1] in *; cbn; lia.
    + inversion H; subst; clear H. lf. pose proof (cnt_upd tokb j None _ _ N). cbn [tokb fst b2n w1] in *. cbn. lia.
  - inversion H; subst. lf. cbn. lia.
Qed.
Lemma tok_steps l : forall s s' tr, lsteps s l = Some (s', tr) -> (cnt is_onclose tr + tokens s' <= cnt is_closed tr + tokens s)%nat.
Proof.
  induction l as [|a l IH]; intros s s' tr H; cbn [lsteps] in H; [inversion H; subst; cbn; lia|]. destruct (lstep s a) as [[s1 t1]|] eqn:E; [|discriminate]. destruct (lsteps s1 l) as [[s2 t2]|] eqn:E2; [|discriminate]. inversion H; subst.
  pose proof (tok_step _ _ _ _ E). pose proof (IH _ _ _ E2). rewrite !cnt_app. lia.
Qed.
(** In every execution, however threads race: on_close was called at most as often as the socket was shut down. *)
Theorem C33_at_most_once need l s tr : lsteps (l0 need) l = Some (s, tr) -> (cnt is_onclose tr <= cnt is_closed tr)%nat.
Proof. intros H. pose proof (tok_steps _ _ _ _ H) as T. cbn in T. lia. Qed.
Print Assumptions C33_at_most_once.

(** one life of a socket: started, shut down, on_close, with an operation outstanding at the first check *)
Definition one_start : list lact := [LStart; LS 0 true; LS 0 true; LS 0 true; LS 0 true; LS 0 true; LS 0 true].
Definition one_close : list lact := [LClose; LC 0; LC 0; LC 0; LC 0; LC 0; LC 0; LC 0].
Definition one_tick : list lact := [LExpire; LBegin 0; LCb 0].
Example C33_at_most_once_example : exists s tr, lsteps (l0 false) (one_start ++ one_close ++ one_tick ++ [LCb 0; LEnd] ++ one_tick ++ [LCb 0; LCb 0; LCb 0; LCb 0; LCb 0; LCb 0] ++ one_start) = Some (s, tr) /\
  tr = [EvStarted; EvClosed; EvOnClose; EvStarted] /\ l_started s = true /\ l_obs s = true.
Proof. do 2 eexists. split; [vm_compute; reflexivity|]. repeat split. Qed.

(** ** the order of starting, shutting down and on_close *)
(** A socket is started only after the on_close of its former life, shut down only when started, and on_close is called only after
    that. *)
Definition C33_order_statement : Prop := forall need l s tr, lsteps (l0 need) l = Some (s, tr) -> life Off tr <> None.
(** False: a thread that found the socket startable may take the lock after another one started and shut it down; the socket is
    started while its closing is in progress *)
Theorem C33_two_starts_refuted : exists l s tr, lsteps (l0 false) l = Some (s, tr) /\ tr = [EvStarted; EvClosed; EvStarted; EvOnClose] /\ life Off tr = None /\ l_started s = true.
Proof.
  exists ([LStart; LS 0 true; LStart; LS 1 true; LS 1 true; LS 1 true; LS 1 true; LS 1 true; LS 1 true] ++ one_close ++ [LS 0 true; LS 0 true; LS 0 true; LS 0 true; LS 0 true; LEnd; LEnd] ++ one_tick ++ [LCb 0]).
  do 2 eexists. split; [vm_compute; reflexivity|]. repeat split.
Qed.
Print Assumptions C33_two_starts_refuted.
(** False also with one call of start(): it may look at the socket when close() has cleared the flag but not started its timer *)
Theorem C33_start_in_close_refuted : exists l s tr, lsteps (l0 false) l = Some (s, tr) /\ tr = [EvStarted; EvClosed; EvStarted; EvOnClose] /\ life Off tr = None /\ l_started s = true.
Proof.
  exists (one_start ++ [LClose; LC 0; LC 0; LC 0; LStart; LS 0 true; LC 0; LC 0; LC 0; LC 0; LS 0 true; LS 0 true; LS 0 true; LS 0 true; LS 0 true; LEnd; LEnd] ++ one_tick ++ [LCb 0]).
  do 2 eexists. split; [vm_compute; reflexivity|]. repeat split.
Qed.
Print Assumptions C33_start_in_close_refuted.
Theorem C33_order_statement_refuted : ~ C33_order_statement.
Proof. intros H. destruct C33_two_starts_refuted as (l & s & tr & R & _ & D & _). exact (H _ _ _ _ R D). Qed.
Print Assumptions C33_order_statement_refuted.

(** on_close is called eventually. False: the handler of the former closing may cancel the timer of the next one. *)
Definition is_lset (p : lphase) : bool := match p with LSet => true | _ => false end.
Definition ldead (s : lst) : Prop := l_started s = false /\ l_on s = false /\ cnt tokb (l_cbs s) = O /\ cnt tokc (l_closes s) = O /\ cnt is_lset (l_closes s) = O.
Lemma ldead_step s a s' tr : ldead s -> lstep s a = Some (s', tr) -> (In EvStarted tr \/ ldead s') /\ ~ In EvOnClose tr.
Proof.
  unfold ldead. intros (ST & O & B & C & L) H. destruct a; cbn [lstep] in H.
  - inversion H; subst. lf. split; [right; repeat split; assumption|intros []].
  - unfold sstep in H. destruct (nth_error (l_starts s) i) as [p|]; [|discriminate]. destruct p.
    + inversion H; subst; clear H. lf. split; [right; repeat split; assumption|intros []].
    + inversion H; subst; clear H. destruct (l_lock s); lf; (split; [right; repeat split; assumption|intros []]).
    + inversion H; subst; clear H. lf. split; [right; repeat split; assumption|intros []].
    + inversion H; subst; clear H. lf. split; [right; repeat split; assumption|intros []].
    + destruct (l_lock s); [discriminate|]. inversion H; subst. lf. split; [right; repeat split; assumption|intros []].
    + inversion H; subst; clear H. lf. destruct ok0; (split; [|intros X; repeat destruct X as [X|X]; try discriminate; contradiction]); [left; left; reflexivity|right; repeat split; assumption].
    + inversion H; subst; clear H. lf. split; [right; repeat split; assumption|intros []].
  - destruct (nth_error (l_starts s) i) as [[]|]; try discriminate. inversion H; subst. lf. split; [right; repeat split; assumption|intros []].
  - inversion H; subst; clear H. lf. split; [right; repeat split; try assumption; rewrite cnt_app, ?C, ?L; reflexivity|intros []].
  - unfold cstep in H. destruct (nth_error (l_closes s) i) as [p|] eqn:N; [|discriminate]. pose proof (fun x => cnt_upd tokc i x _ _ N) as U1. pose proof (fun x => cnt_upd is_lset i x _ _ N) as U2. destruct p.
    + destruct (l_lock s); [discriminate|]. inversion H; subst; clear H. lf. split; [right|intros []]. specialize (U1 (Some LTest)). specialize (U2 (Some LTest)). cbn [tokc is_lset b2n] in *. repeat split; try assumption; lia.
    + inversion H; subst; clear H. lf. rewrite ST. split; [right|intros []]. specialize (U1 (Some LRel)). specialize (U2 (Some LRel)). cbn [tokc is_lset b2n] in *. repeat split; try assumption; lia.
    + exfalso. pose proof (cnt_nth is_lset _ _ _ N eq_refl). lia.
    + exfalso. pose proof (cnt_nth tokc _ _ _ N eq_refl). lia.
    + exfalso. pose proof (cnt_nth tokc _ _ _ N eq_refl). lia.
    + exfalso. pose proof (cnt_nth tokc _ _ _ N eq_refl). lia.
    + inversion H; subst; clear H. lf. split; [right|intros []]. specialize (U1 None). specialize (U2 None). cbn [tokc is_lset b2n] in *. repeat split; try assumption; lia.
  - inversion H; subst. lf. split; [right; repeat split; assumption|intros []].
  - destruct (l_ops s); [discriminate|]. inversion H; subst. lf. split; [right; repeat split; assumption|intros []].
  - destruct (l_ops s); [discriminate|]. inversion H; subst. lf. split; [right; repeat split; assumption|intros []].
  - destruct (l_wait s); [|discriminate]. inversion H; subst. lf. split; [right; repeat split; assumption|intros []].
  - destruct (nth_error (l_q s) k) as [[w ok]|]; [|discriminate]. rewrite O in H. cbn [andb] in H. inversion H; subst; clear H. lf. split; [right; repeat split; try assumption; rewrite cnt_app, B; reflexivity|intros []].
  - unfold bstep in H. destruct (nth_error (l_cbs s) j) as [[p w]|] eqn:N; [|discriminate]. pose proof (fun x => cnt_upd tokb j x _ _ N) as U1. destruct p; try (exfalso; pose proof (cnt_nth tokb _ _ _ N eq_refl); lia).
    + inversion H; subst; clear H. lf. split; [right|intros []]. specialize (U1 (Some (CAfter, w))). cbn [tokb fst b2n] in *. repeat split; try assumption; lia.
    + inversion H; subst; clear H. split; [right|intros []]. specialize (U1 (Some (CObs, w))). destruct (l_need s); lf; cbn [tokb fst b2n] in *; repeat split; try assumption; lia.
    + inversion H; subst; clear H. lf. split; [right|intros []]. specialize (U1 (Some (CSeq, w))). cbn [tokb fst b2n] in *. repeat split; try assumption; lia.
    + inversion H; subst; clear H. lf. split; [right|intros []]. pose proof (U1 (Some (COff, w))). pose proof (U1 None). destruct (same_seq w (l_no s)); cbn [tokb fst b2n] in *; repeat split; try assumption; lia.
    + inversion H; subst; clear H. lf. split; [right|intros []]. specialize (U1 None). cbn [tokb fst b2n] in *. repeat split; try assumption; lia.
  - inversion H; subst. lf. split; [right; repeat split; assumption|intros []].
Qed.
Lemma ldead_forever l : forall s s' tr, ldead s -> lsteps s l = Some (s', tr) -> ~ In EvStarted tr -> ~ In EvOnClose tr.
Proof.
  induction l as [|a l IH]; intros s s' tr D H NS; cbn [lsteps] in H; [inversion H; subst; auto|]. destruct (lstep s a) as [[s1 t1]|] eqn:E; [|discriminate]. destruct (lsteps s1 l) as [[s2 t2]|] eqn:E2; [|discriminate]. inversion H; subst. destruct (ldead_step _ _ _ _ D E) as ([X|D1] & N1); [exfalso; apply NS, in_or_app; left; exact X|].
  intros X. apply in_app_or in X as [X|X]; [exact (N1 X)|]. exact (IH _ _ _ D1 E2 ltac:(intros Y; apply NS, in_or_app; right; exact Y) X).
Qed.
Theorem C33_lost_refuted : exists l s tr, lsteps (l0 false) l = Some (s, tr) /\ life Off tr = Some Closing /\
  forall l2 s2 tr2, lsteps s l2 = Some (s2, tr2) -> ~ In EvStarted tr2 -> ~ In EvOnClose tr2.
Proof.
  exists (one_start ++ [LEnd] ++ one_close ++ one_tick ++ [LCb 0; LCb 0; LCb 0; LCb 0] ++ one_start ++ [LEnd; LClose; LC 0; LC 0; LC 0; LC 0; LC 0; LCb 0; LCb 0; LC 0; LC 0]).
  do 2 eexists. split; [vm_compute; reflexivity|]. split; [reflexivity|]. intros l2 s2 tr2 H. eapply ldead_forever; [|exact H]. repeat split.
Qed.
Print Assumptions C33_lost_refuted.

(** on_close may be called while another asynchronous call is in progress: one the application began after the last check *)
Theorem C33_pending_refuted : exists l s tr s' , lsteps (l0 false) l = Some (s, tr) /\ lstep s (LCb 0) = Some (s', [EvOnClose]) /\ calls s = 2%nat.
Proof.
  exists (one_start ++ [LEnd] ++ one_close ++ one_tick ++ [LApp]). do 3 eexists. split; [vm_compute; reflexivity|]. split; vm_compute; reflexivity.
Qed.
Print Assumptions C33_pending_refuted.
(** a client that reconnected once is reported obsolete though it is connected, if it has no operation in progress (which happens
    with ST_ASIO_PASSIVE_RECV) *)
Theorem C33_obsolete_refuted : exists l s tr, lsteps (l0 true) l = Some (s, tr) /\ life Off tr = Some On /\ l_started s = true /\ obsoleted s = true.
Proof.
  exists (one_start ++ [LEnd] ++ one_close ++ one_tick ++ [LCb 0; LCb 0; LCb 0; LS 0 true; LS 0 true; LS 0 true; LS 0 true; LS 0 true; LS 0 true; LCb 0; LCb 0; LCb 0; LNeed false; LEnd]).
  do 2 eexists. split; [vm_compute; reflexivity|]. repeat split.
Qed.
Print Assumptions C33_obsolete_refuted.

(** ** what holds when starting and closing do not overlap *)
(** beyond its first look at the socket, respectively beyond waiting for the lock *)
Definition busy_s (p : sphase) : bool := match p with SCheck => false | _ => true end.
Definition busy_c (p : lphase) : bool := match p with LTry => false | _ => true end.
Definition excl (s : lst) : Prop := (cnt busy_s (l_starts s) + cnt busy_c (l_closes s) <= 1)%nat.
(** close() starts its timer when no handler of the former closing is still running *)
Definition tcalm (s : lst) (a : lact) : Prop := match a with LC i => nth_error (l_closes s) i = Some LTim1 -> l_cbs s = [] | _ => True end.
Fixpoint calm (s : lst) (l : list lact) : Prop :=
  match l with
  | [] => True
  | a :: l' => tcalm s a /\ match lstep s a with Some (s1, _) => excl s1 /\ calm s1 l' | None => True end
  end.
Definition hot (p : sphase) : bool := match p with SCheck | SRel => false | _ => true end.
Definition is_ltim2 (p : lphase) : bool := match p with LTim2 => true | _ => false end.
Definition is_onp (p : phase) : bool := match p with On => true | _ => false end.
Definition is_clo (p : phase) : nat := match p with Closing => 1%nat | _ => O end.
Record J (s : lst) (p : phase) : Prop := mk_J {
  j_st : l_started s = is_onp p;
  j_tok : (cnt tokc (l_closes s) + (w1 (l_wait s) + cnt snd (l_q s) + cnt tokb (l_cbs s)) = is_clo p)%nat;
  j_q : cnt snd (l_q s) = length (l_q s);
  j_hot : (0 < cnt hot (l_starts s))%nat -> is_onp p = false /\ is_clo p = O /\ l_on s = false;
  j_set : (0 < cnt is_lset (l_closes s))%nat -> is_onp p = true;
  j_tim : (0 < cnt is_ltim2 (l_closes s))%nat -> l_on s = true /\ length (l_cbs s) = O;
  j_tt : (0 < w1 (l_wait s) + cnt snd (l_q s) + cnt tokb (l_cbs s))%nat -> l_on s = true /\ length (l_cbs s) = cnt tokb (l_cbs s)
}.
Ltac jx p := exists p; split; [first [reflexivity | cbn; reflexivity]|]; constructor; lf; unfold hot, is_lset, is_ltim2, tokc, tokb, busy_s, busy_c in *; cbn [fst snd is_onp is_clo b2n w1 length] in *; try reflexivity; try assumption; intros; repeat split; try assumption; try lia.
Ltac ups N i x := pose proof (cnt_upd hot i x _ _ N); pose proof (cnt_upd busy_s i x _ _ N).
Ltac upc N i x := pose proof (cnt_upd tokc i x _ _ N); pose proof (cnt_upd is_lset i x _ _ N); pose proof (cnt_upd is_ltim2 i x _ _ N); pose proof (cnt_upd busy_c i x _ _ N).
Ltac upb N i x := pose proof (cnt_upd tokb i x _ _ N); pose proof (len_upd i x _ _ N); pose proof (cnt_le tokb (upd i x (l_cbs ltac:(match goal with s : lst |- _ => exact s end)))).
Lemma hot_busy l : (cnt hot l <= cnt busy_s l)%nat.
Proof. induction l as [|c l IH]; [cbn; lia|]. rewrite !cnt_cons. destruct c; cbn [hot busy_s b2n]; lia. Qed.
Definition is_early (p : lphase) : bool := match p with LStop | LTim1 => true | _ => false end.
Lemma close_busy l : (cnt is_lset l + cnt tokc l <= cnt busy_c l /\ cnt is_ltim2 l + cnt is_early l <= cnt tokc l)%nat.
Proof. induction l as [|c l IH]; [cbn; lia|]. rewrite !cnt_cons. destruct c; cbn [is_lset is_ltim2 is_early tokc busy_c b2n]; lia. Qed.
Lemma J_step s p a s' tr : J s p -> excl s -> excl s' -> tcalm s a -> lstep s a = Some (s', tr) -> exists p', life p tr = Some p' /\ J s' p'.
Proof.
  unfold excl. intros [A B C D E F G] X X' T H. pose proof (hot_busy (l_starts s)) as HBS. destruct (close_busy (l_closes s)) as (CB1 & CB2). assert (PC : (is_clo p <= 1)%nat) by (destruct p; cbn; lia). destruct a; cbn [lstep] in H.
  - inversion H; subst; clear H. exists p. split; [reflexivity|]. constructor; lf; rewrite ?cnt_app; try assumption. intros Q. apply D. cbn in Q. lia.
  - unfold sstep in H. destruct (nth_error (l_starts s) i) as [ph|] eqn:N; [|discriminate]. destruct ph.
    + inversion H; subst; clear H. ups N i (if negb (l_started s) && negb (l_on s) then Some STry else None). lf.
      destruct (l_started s) eqn:ES, (l_on s) eqn:EO; cbn [negb andb hot busy_s b2n] in *; exists p; (split; [reflexivity|]); constructor; lf; rewrite ?ES, ?EO; try assumption; try (intros Q; lia).
    + inversion H; subst; clear H. ups N i (@None sphase). ups N i (Some STest). destruct (l_lock s); lf; cbn [hot busy_s b2n] in *; exists p; (split; [reflexivity|]); constructor; lf; try assumption; intros Q; lia.
    + inversion H; subst; clear H. ups N i (Some SRel). ups N i (Some SDo). destruct (l_started s) eqn:ES; lf; cbn [hot busy_s b2n] in *; exists p; (split; [reflexivity|]); constructor; lf; rewrite ?ES; try assumption; intros Q; lia.
    + inversion H; subst; clear H. ups N i (Some (SSet ok)). lf; cbn [hot busy_s b2n] in *; exists p; (split; [reflexivity|]); constructor; lf; try assumption; intros Q; lia.
    + destruct (l_lock s); [discriminate|]. inversion H; subst; clear H. ups N i (Some (SSet true)). lf; cbn [hot busy_s b2n] in *; exists p; (split; [reflexivity|]); constructor; lf; try assumption; intros Q; lia.
    + inversion H; subst; clear H. ups N i (Some SRel). pose proof (cnt_nth hot _ _ _ N eq_refl) as HH. pose proof (cnt_nth busy_s _ _ _ N eq_refl) as HB. destruct (D HH) as (D1 & D2 & D3). lf; cbn [hot busy_s b2n] in *.
     
      assert (P : p = Off) by (destruct p; try discriminate; reflexivity). subst p. destruct ok0; [exists On|exists Off]; (split; [reflexivity|]); constructor; lf; cbn [is_onp is_clo] in *; try assumption; try reflexivity; intros Q; lia.
    + inversion H; subst; clear H. ups N i (@None sphase). lf; cbn [hot busy_s b2n] in *; exists p; (split; [reflexivity|]); constructor; lf; try assumption; intros Q; lia.
  - destruct (nth_error (l_starts s) i) as [[]|] eqn:N; try discriminate. inversion H; subst; clear H. ups N i (Some SSpin). lf; cbn [hot busy_s b2n] in *; exists p; (split; [reflexivity|]); constructor; lf; try assumption; intros Q; lia.
  - inversion H; subst; clear H. lf. rewrite !cnt_app in *. exists p; (split; [reflexivity|]); constructor; lf; rewrite ?cnt_app; change (cnt tokc [LTry]) with O; change (cnt is_lset [LTry]) with O; change (cnt is_ltim2 [LTry]) with O; rewrite ?Nat.add_0_r; assumption.
  - unfold cstep in H. destruct (nth_error (l_closes s) i) as [ph|] eqn:N; [|discriminate]. cbn [tcalm] in T. rewrite N in T. destruct ph.
    + destruct (l_lock s); [discriminate|]. inversion H; subst; clear H. upc N i (Some LTest). lf; cbn [tokc is_lset is_ltim2 busy_c b2n] in *; exists p; (split; [reflexivity|]); constructor; lf; try assumption; try lia; intros Q; lia.
    + inversion H; subst; clear H. upc N i (Some LSet). upc N i (Some LRel). destruct (l_started s) eqn:ES; lf; cbn [tokc is_lset is_ltim2 busy_c b2n] in *; exists p; (split; [reflexivity|]); constructor; lf; rewrite ?ES; try assumption; try lia; intros Q; lia.
    + inversion H; subst; clear H. upc N i (Some LStop). pose proof (cnt_nth is_lset _ _ _ N eq_refl) as HS. pose proof (cnt_nth busy_c _ _ _ N eq_refl) as HB. pose proof (E HS) as P. assert (p = On) by (destruct p; try discriminate; reflexivity). subst p.
     
      lf; cbn [tokc is_lset is_ltim2 busy_c b2n is_onp is_clo] in *; exists Closing; (split; [reflexivity|]); constructor; lf; cbn [is_onp is_clo]; try assumption; try reflexivity; try lia; intros Q; lia.
    + inversion H; subst; clear H. upc N i (Some LTim1). pose proof (cnt_nth is_early _ _ _ N eq_refl). pose proof (cnt_nth tokc _ _ _ N eq_refl) as HT. pose proof (cnt_nth busy_c _ _ _ N eq_refl) as HB.
      assert (TT : is_clo p = 1%nat /\ (w1 (l_wait s) + cnt snd (l_q s) + cnt tokb (l_cbs s) = 0)%nat) by (destruct p; cbn [is_clo] in *; lia). destruct TT as (TT & TZ).
      unfold tim_stop in *. rewrite stop_closes in X' || idtac. destruct (l_on s) eqn:EO; lf; rewrite ?EO in *; lf.
      * assert (l_wait s = None) as W by (destruct (l_wait s); [cbn [w1] in TZ; lia|reflexivity]).
        cbn [tokc is_lset is_ltim2 busy_c b2n] in *; exists p; (split; [reflexivity|]); constructor; lf; unfold cancelled; lf; rewrite ?W in *; cbn [w1] in *; try assumption; try lia; intros Q; lia.
      * cbn [tokc is_lset is_ltim2 busy_c b2n] in *; exists p; (split; [reflexivity|]); constructor; lf; rewrite ?EO; try assumption; try lia; intros Q; lia.
    + inversion H; subst; clear H. upc N i (Some LTim2). pose proof (cnt_nth is_early _ _ _ N eq_refl). specialize (T eq_refl). pose proof (cnt_nth tokc _ _ _ N eq_refl) as HT. pose proof (cnt_nth busy_c _ _ _ N eq_refl) as HB.
      assert (TT : is_clo p = 1%nat /\ (w1 (l_wait s) + cnt snd (l_q s) + cnt tokb (l_cbs s) = 0)%nat) by (destruct p; cbn [is_clo] in *; lia). destruct TT as (TT & TZ).
      assert (l_wait s = None) as W by (destruct (l_wait s); [cbn [w1] in TZ; lia|reflexivity]).
     
      lf; cbn [tokc is_lset is_ltim2 busy_c b2n] in *; exists p; (split; [reflexivity|]); constructor; lf; unfold cancelled; lf; rewrite ?W, ?T in *; cbn [w1 length] in *; try assumption; try lia; intros Q; repeat split; lia.
    + inversion H; subst; clear H. upc N i (Some LRel). pose proof (cnt_nth tokc _ _ _ N eq_refl) as HT. pose proof (cnt_nth is_ltim2 _ _ _ N eq_refl) as HT2. pose proof (cnt_nth busy_c _ _ _ N eq_refl) as HB. destruct (F HT2) as (F1 & F2).
      assert (TT : is_clo p = 1%nat /\ (w1 (l_wait s) + cnt snd (l_q s) + cnt tokb (l_cbs s) = 0)%nat) by (destruct p; cbn [is_clo] in *; lia). destruct TT as (TT & TZ).
      lf; cbn [tokc is_lset is_ltim2 busy_c b2n] in *; exists p; (split; [reflexivity|]); constructor; lf; cbn [w1]; try assumption; try lia; intros Q; repeat split; lia.
    + inversion H; subst; clear H. upc N i (@None lphase). lf; cbn [tokc is_lset is_ltim2 busy_c b2n] in *; exists p; (split; [reflexivity|]); constructor; lf; try assumption; try lia; intros Q; lia.
  - inversion H; subst. exists p; (split; [reflexivity|]); constructor; lf; assumption.
  - destruct (l_ops s); [discriminate|]. inversion H; subst. exists p; (split; [reflexivity|]); constructor; lf; assumption.
  - destruct (l_ops s); [discriminate|]. inversion H; subst. exists p; (split; [reflexivity|]); constructor; lf; assumption.
  - destruct (l_wait s) eqn:W; [|discriminate]. inversion H; subst; clear H. exists p; (split; [reflexivity|]); constructor; lf; rewrite ?cnt_app, ?app_length, ?cnt_cons; change (@cnt (N * bool) snd []) with O; cbn [w1 snd b2n length] in *; try assumption; try lia.
  - destruct (nth_error (l_q s) k) as [[w ok]|] eqn:N; [|discriminate]. inversion H; subst; clear H. pose proof (cnt_rem snd _ _ _ N) as R. pose proof (cnt_rem (fun _ => true) _ _ _ N) as R2. rewrite !cnt_true in R2. pose proof (cnt_le snd (remove_at k (l_q s))). cbn [snd b2n] in *.
    assert (ok = true) as -> by (destruct ok; [reflexivity|cbn [b2n] in *; lia]). cbn [b2n] in *. destruct G as (G1 & G2); [lia|]. rewrite G1 in *. cbn [andb].
    exists p; (split; [reflexivity|]); constructor; lf; rewrite ?cnt_app, ?app_length, ?cnt_cons; change (cnt tokb []) with O; rewrite ?G1; cbn [tokb fst b2n length]; try assumption; try lia; intros Q; lia.
  - unfold bstep in H. destruct (nth_error (l_cbs s) j) as [[c w]|] eqn:N; [|discriminate]. pose proof (fun x => cnt_upd tokb j x _ _ N) as U. pose proof (fun x => len_upd j x _ _ N) as V. pose proof (cnt_le tokb (l_cbs s)) as LE.
    pose proof (cnt_rem tokb _ _ _ N) as R1. pose proof (cnt_rem (fun _ => true) _ _ _ N) as R2. rewrite !cnt_true in R2. pose proof (cnt_le tokb (remove_at j (l_cbs s))) as LR. destruct c.
    + inversion H; subst; clear H. specialize (U (Some (if (calls s =? 1)%nat then COn else CAgain, w))). specialize (V (Some (if (calls s =? 1)%nat then COn else CAgain, w))). destruct (calls s =? 1)%nat; lf; cbn [tokb fst b2n] in *; exists p; (split; [reflexivity|]); constructor; lf; try assumption; try lia; intros Q; lia.
    + inversion H; subst; clear H. specialize (U (Some (CCancel, w))). specialize (V (Some (CCancel, w))). lf; cbn [tokb fst b2n] in *. assert (p = Closing) by (destruct p; cbn [is_clo] in *; [lia|lia|reflexivity]). subst p. cbn [is_onp is_clo] in *. exists Off; (split; [reflexivity|]); constructor; lf; cbn [is_onp is_clo]; try assumption; try lia; intros Q; lia.
    + inversion H; subst; clear H. specialize (U (Some (CAfter, w))). specialize (V (Some (CAfter, w))). lf; cbn [tokb fst b2n] in *. exists p; (split; [reflexivity|]); constructor; lf; try assumption; try lia; intros Q; try lia.
    + inversion H; subst; clear H. specialize (U (Some (CObs, w))). specialize (V (Some (CObs, w))). destruct (l_need s); lf; cbn [tokb fst b2n] in *; exists p; (split; [reflexivity|]); constructor; lf; rewrite ?cnt_app in *; try assumption; try lia; intros Q; cbn in Q; try lia.
    + inversion H; subst; clear H. specialize (U (Some (CSeq, w))). specialize (V (Some (CSeq, w))). lf; cbn [tokb fst b2n] in *; exists p; (split; [reflexivity|]); constructor; lf; try assumption; try lia; intros Q; try lia.
    + assert (EO : l_on s = true) by (apply G; cbn [tokb fst b2n] in *; lia). rewrite EO in H. inversion H; subst; clear H. specialize (U None). specialize (V None). lf; cbn [tokb fst b2n] in *. assert (is_clo p <= 1)%nat by (destruct p; cbn; lia).
      assert (l_wait s = None) as W by (destruct (l_wait s); [cbn [w1] in *; lia|reflexivity]).
      exists p; (split; [reflexivity|]); constructor; lf; unfold cancelled; lf; rewrite ?W in *; cbn [w1] in *; try assumption; try lia; intros Q; try lia.
    + inversion H; subst; clear H. pose proof (U None). pose proof (V None). specialize (U (Some (COff, w))). specialize (V (Some (COff, w))). destruct (same_seq w (l_no s)); lf; cbn [tokb fst b2n] in *; exists p; (split; [reflexivity|]); constructor; lf; try assumption; try lia; intros Q; try lia.
    + inversion H; subst; clear H. specialize (U None). specialize (V None). lf; cbn [tokb fst b2n] in *; exists p; (split; [reflexivity|]); constructor; lf; try assumption; try lia; intros Q; try lia.
  - inversion H; subst. exists p; (split; [reflexivity|]); constructor; lf; assumption.
Qed.
Lemma J_init need : J (l0 need) Off.
Proof. constructor; cbn; try reflexivity; intros; lia. Qed.
Lemma J_steps l : forall s p s' tr, J s p -> excl s -> calm s l -> lsteps s l = Some (s', tr) -> exists p', life p tr = Some p' /\ J s' p' /\ excl s'.
Proof.
  induction l as [|a l IH]; intros s p s' tr JS X C H; cbn [lsteps] in H; [inversion H; subst; exists p; auto|]. cbn [calm] in C. destruct C as (T & C). destruct (lstep s a) as [[s1 t1]|] eqn:E; [|discriminate]. destruct C as (X1 & C). destruct (lsteps s1 l) as [[s2 t2]|] eqn:E2; [|discriminate]. inversion H; subst.
  destruct (J_step _ _ _ _ _ JS X X1 T E) as (p1 & L1 & J1). destruct (IH _ _ _ _ J1 X1 C E2) as (p2 & L2 & J2). exists p2. rewrite life_app, L1. auto.
Qed.
Lemma excl_init need : excl (l0 need).
Proof. unfold excl. cbn. lia. Qed.
(** When starting, closing and the handlers of two closings do not overlap, the socket is started, shut down and told on_close in
    turns, so start() is refused until on_close was called, and shutting down again does nothing; the socket is started in between. *)
Theorem C33_order_partial need l s tr : lsteps (l0 need) l = Some (s, tr) -> calm (l0 need) l -> exists p, life Off tr = Some p /\ (l_started s = true <-> p = On).
Proof.
  intros H C. destruct (J_steps _ _ _ _ _ (J_init need) (excl_init need) C H) as (p & L & JS & _). exists p. split; [exact L|]. rewrite (j_st _ _ JS). destruct p; cbn; split; intros; try discriminate; reflexivity.
Qed.
Print Assumptions C33_order_partial.
Definition a_life : list lact := one_start ++ one_close ++ one_tick ++ [LCb 0; LEnd] ++ one_tick ++ [LCb 0; LCb 0; LCb 0; LCb 0; LCb 0; LCb 0].
Example C33_order_partial_example : exists s tr, lsteps (l0 false) (a_life ++ a_life ++ one_start) = Some (s, tr) /\ calm (l0 false) (a_life ++ a_life ++ one_start) /\
  tr = [EvStarted; EvClosed; EvOnClose; EvStarted; EvClosed; EvOnClose; EvStarted].
Proof. do 2 eexists. split; [vm_compute; reflexivity|]. split; [|reflexivity]. vm_compute. repeat split; intros; try discriminate; try reflexivity; repeat constructor. Qed.

(** ** on_close and other calls *)
Definition is_con (x : cphase * N) : bool := match fst x with COn => true | _ => false end.
(** nothing is begun by the application, between the last check of the handler and on_close *)
Definition no_new (s : lst) (a : lact) : Prop := match a with LApp | LClose => cnt is_con (l_cbs s) = O | _ => True end.
Fixpoint quiet (s : lst) (l : list lact) : Prop :=
  match l with [] => True | a :: l' => no_new s a /\ match lstep s a with Some (s1, _) => quiet s1 l' | None => True end end.
Definition Q (s : lst) : Prop := (0 < cnt is_con (l_cbs s))%nat -> calls s = 1%nat.
Lemma con_tok l : (cnt is_con l <= cnt tokb l)%nat.
Proof. induction l as [|[c w] l IH]; [cbn; lia|]. rewrite !cnt_cons. destruct c; cbn [is_con tokb fst b2n]; lia. Qed.
Lemma Q_step s p a s' tr : J s p -> Q s -> no_new s a -> lstep s a = Some (s', tr) -> Q s'.
Proof.
  unfold Q, calls. intros JS QS NN H. pose proof (con_tok (l_cbs s)) as CT. pose proof (cnt_le is_con (l_cbs s)) as CL. destruct JS as [A B C D E F G]. destruct a; cbn [lstep] in H; cbn [no_new] in NN.
  - inversion H; subst; clear H. lf. exact QS.
  - unfold sstep in H. destruct (nth_error (l_starts s) i) as [ph|] eqn:N; [|discriminate]. destruct ph.
    + inversion H; subst; clear H. lf. exact QS.
    + inversion H; subst; clear H. destruct (l_lock s); lf; exact QS.
    + inversion H; subst; clear H. lf. exact QS.
    + inversion H; subst; clear H. lf. intros Q1. exfalso. pose proof (cnt_nth hot _ _ _ N eq_refl) as HH. destruct (D HH) as (_ & D2 & _). lia.
    + destruct (l_lock s); [discriminate|]. inversion H; subst; clear H. lf. exact QS.
    + inversion H; subst; clear H. lf. exact QS.
    + inversion H; subst; clear H. lf. exact QS.
  - destruct (nth_error (l_starts s) i) as [[]|] eqn:N; try discriminate. inversion H; subst; clear H. lf. exact QS.
  - inversion H; subst; clear H. lf. intros Q1. lia.
  - unfold cstep in H. destruct (nth_error (l_closes s) i) as [ph|] eqn:N; [|discriminate]. assert (LC : (0 < length (l_closes s))%nat) by (pose proof (cnt_nth (fun _ => true) _ _ _ N eq_refl) as Z; rewrite cnt_true in Z; exact Z).
    assert (L1 : (0 < cnt is_con (l_cbs s))%nat -> False) by (intros Z; specialize (QS Z); lia).
    destruct ph; try (destruct (l_lock s); [discriminate|]); inversion H; subst; clear H; intros Q1; exfalso; apply L1; revert Q1; unfold tim_stop; lf; try (destruct (l_on s)); lf; auto.
  - inversion H; subst; clear H. lf. intros Q1. lia.
  - destruct (l_ops s) eqn:O; [discriminate|]. inversion H; subst; clear H. lf. intros Q1. specialize (QS Q1). lia.
  - destruct (l_ops s) eqn:O; [discriminate|]. inversion H; subst; clear H. lf. intros Q1. specialize (QS Q1). lia.
  - destruct (l_wait s) eqn:W; [|discriminate]. inversion H; subst; clear H. lf. intros Q1. specialize (QS Q1). rewrite app_length. cbn [length]. lia.
  - destruct (nth_error (l_q s) k) as [[w ok]|] eqn:N; [|discriminate]. inversion H; subst; clear H. lf. pose proof (cnt_rem (fun _ => true) _ _ _ N) as R2. rewrite !cnt_true in R2. cbn [b2n] in R2. rewrite cnt_app, app_length. cbn [length]. intros Q1. assert (Z : (0 < cnt is_con (l_cbs s))%nat) by (destruct (l_on s && ok); cbn in Q1; lia). specialize (QS Z). lia.
  - unfold bstep in H. destruct (nth_error (l_cbs s) j) as [[c w]|] eqn:N; [|discriminate]. pose proof (fun x => cnt_upd is_con j x _ _ N) as U. pose proof (fun x => len_upd j x _ _ N) as V. destruct c.
    + inversion H; subst; clear H. specialize (U (Some (if (calls s =? 1)%nat then COn else CAgain, w))). specialize (V (Some (if (calls s =? 1)%nat then COn else CAgain, w))). unfold calls in *. lf. destruct (_ =? 1)%nat eqn:EQ; cbn [is_con fst b2n] in *; intros Q1; [apply Nat.eqb_eq in EQ; lia|]. assert (Z : (0 < cnt is_con (l_cbs s))%nat) by lia. specialize (QS Z). lia.
    + inversion H; subst; clear H. specialize (U (Some (CCancel, w))). specialize (V (Some (CCancel, w))). lf. cbn [is_con fst b2n] in *. intros Q1. assert (Z : (0 < cnt is_con (l_cbs s))%nat) by lia. specialize (QS Z). lia.
    + inversion H; subst; clear H. specialize (U (Some (CAfter, w))). specialize (V (Some (CAfter, w))). lf. cbn [is_con fst b2n] in *. intros Q1. assert (Z : (0 < cnt is_con (l_cbs s))%nat) by lia. specialize (QS Z). lia.
    + inversion H; subst; clear H. specialize (U (Some (CObs, w))). specialize (V (Some (CObs, w))). destruct (l_need s); lf; cbn [is_con fst b2n] in *; intros Q1; assert (Z : (0 < cnt is_con (l_cbs s))%nat) by lia; specialize (QS Z); lia.
    + inversion H; subst; clear H. specialize (U (Some (CSeq, w))). specialize (V (Some (CSeq, w))). lf. cbn [is_con fst b2n] in *. intros Q1. assert (Z : (0 < cnt is_con (l_cbs s))%nat) by lia. specialize (QS Z). lia.
    + pose proof (cnt_rem is_con _ _ _ N) as R1. pose proof (cnt_rem (fun _ => true) _ _ _ N) as R2. rewrite !cnt_true in R2. pose proof (cnt_le is_con (remove_at j (l_cbs s))) as LR. cbn [is_con fst b2n] in *.
      inversion H; subst; clear H. pose proof (U None). pose proof (V None). specialize (U (Some (CSeq, w))). specialize (V (Some (CSeq, w))). destruct (l_on s); lf; cbn [is_con fst b2n] in *; intros Q1; assert (Z : (0 < cnt is_con (l_cbs s))%nat) by lia; specialize (QS Z); lia.
    + pose proof (cnt_rem is_con _ _ _ N) as R1. pose proof (cnt_rem (fun _ => true) _ _ _ N) as R2. rewrite !cnt_true in R2. pose proof (cnt_le is_con (remove_at j (l_cbs s))) as LR. cbn [is_con fst b2n] in *.
      inversion H; subst; clear H. pose proof (U None). pose proof (V None). specialize (U (Some (COff, w))). specialize (V (Some (COff, w))). destruct (same_seq w (l_no s)); lf; cbn [is_con fst b2n] in *; intros Q1; assert (Z : (0 < cnt is_con (l_cbs s))%nat) by lia; specialize (QS Z); lia.
    + pose proof (cnt_rem is_con _ _ _ N) as R1. pose proof (cnt_rem (fun _ => true) _ _ _ N) as R2. rewrite !cnt_true in R2. pose proof (cnt_le is_con (remove_at j (l_cbs s))) as LR. cbn [is_con fst b2n] in *.
      inversion H; subst; clear H. specialize (U None). specialize (V None). lf. cbn [is_con fst b2n] in *. intros Q1. assert (Z : (0 < cnt is_con (l_cbs s))%nat) by lia. specialize (QS Z). lia.
  - inversion H; subst; clear H. lf. exact QS.
Qed.
Lemma Q_steps l : forall s p s' tr, J s p -> Q s -> excl s -> calm s l -> quiet s l -> lsteps s l = Some (s', tr) -> Q s'.
Proof.
  induction l as [|a l IH]; intros s p s' tr JS QS X C W H; cbn [lsteps] in H; [inversion H; subst; exact QS|]. cbn [calm] in C. cbn [quiet] in W. destruct C as (T & C). destruct W as (NN & W). destruct (lstep s a) as [[s1 t1]|] eqn:E; [|discriminate]. destruct C as (X1 & C). destruct (lsteps s1 l) as [[s2 t2]|] eqn:E2; [|discriminate]. inversion H; subst.
  destruct (J_step _ _ _ _ _ JS X X1 T E) as (p1 & L1 & J1). exact (IH _ _ _ _ J1 (Q_step _ _ _ _ _ JS QS NN E) X1 C W E2).
Qed.
Lemma onclose_con s a s' tr : lstep s a = Some (s', tr) -> In EvOnClose tr -> (0 < cnt is_con (l_cbs s))%nat.
Proof.
  intros H I. destruct a; cbn [lstep] in H; try (inversion H; subst; destruct I; fail).
  - unfold sstep in H. destruct (nth_error (l_starts s) i) as [ph|]; [|discriminate]. destruct ph; try (destruct (l_lock s); [discriminate|]); inversion H; subst; clear H; try (destruct I; fail). destruct ok0; cbn in I; [destruct I as [I|I]; [discriminate|destruct I]|destruct I].
  - destruct (nth_error (l_starts s) i) as [[]|]; try discriminate. inversion H; subst; destruct I.
  - unfold cstep in H. destruct (nth_error (l_closes s) i) as [ph|]; [|discriminate]. destruct ph; try (destruct (l_lock s); [discriminate|]); inversion H; subst; clear H; try (destruct I; fail). destruct I as [I|I]; [discriminate|destruct I].
  - destruct (l_ops s); [discriminate|]. inversion H; subst; destruct I.
  - destruct (l_ops s); [discriminate|]. inversion H; subst; destruct I.
  - destruct (l_wait s); [|discriminate]. inversion H; subst; destruct I.
  - destruct (nth_error (l_q s) k) as [[w ok]|]; [|discriminate]. inversion H; subst; destruct I.
  - unfold bstep in H. destruct (nth_error (l_cbs s) j) as [[c w]|] eqn:N; [|discriminate]. destruct c; inversion H; subst; clear H; try (destruct I; fail). exact (cnt_nth is_con _ _ _ N eq_refl).
Qed.
(** and if the application begins nothing between the last check and on_close, then no other asynchronous call is in progress when
    on_close is called (the handler that calls it is the only one) *)
Theorem C33_quiet_partial need l s tr a s' tr' : lsteps (l0 need) l = Some (s, tr) -> calm (l0 need) l -> quiet (l0 need) l -> lstep s a = Some (s', tr') -> In EvOnClose tr' -> calls s = 1%nat.
Proof.
  intros H C W S I. apply (Q_steps _ _ _ _ _ (J_init need)) in H; [|unfold Q; cbn; lia|apply excl_init|exact C|exact W]. apply H. exact (onclose_con _ _ _ _ S I).
Qed.
Print Assumptions C33_quiet_partial.
Example C33_quiet_partial_example : let l := one_start ++ one_close ++ one_tick ++ [LCb 0; LMore; LEnd; LEnd] ++ one_tick in
  exists s tr s', lsteps (l0 true) l = Some (s, tr) /\ calm (l0 true) l /\ quiet (l0 true) l /\ lstep s (LCb 0) = Some (s', [EvOnClose]).
Proof. do 3 eexists. split; [vm_compute; reflexivity|]. split; [|split; [|vm_compute; reflexivity]]; vm_compute; repeat split; intros; try discriminate; try reflexivity; repeat constructor. Qed.

(** A socket is not reported obsolete before on_close was called; nor when it is started again, as long as it has an operation in
    progress. *)
Theorem C33_obsolete_partial need l s tr : lsteps (l0 need) l = Some (s, tr) -> calm (l0 need) l -> (l_started s = true -> (0 < l_ops s)%nat) -> obsoleted s = true -> life Off tr = Some Off.
Proof.
  intros H C O B. destruct (J_steps _ _ _ _ _ (J_init need) (excl_init need) C H) as (p & L & JS & _). rewrite L. unfold obsoleted in B. apply andb_true_iff in B as (_ & B). apply Nat.eqb_eq in B. unfold calls in B. destruct JS as [A T Cq _ _ _ _].
  pose proof (cnt_le tokc (l_closes s)). pose proof (cnt_le tokb (l_cbs s)). destruct p; [reflexivity| |]; exfalso; cbn [is_onp is_clo] in *; [specialize (O A); lia|]. destruct (l_wait s); cbn [w1] in *; lia.
Qed.
Print Assumptions C33_obsolete_partial.
Example C33_obsolete_partial_example : exists s tr, lsteps (l0 false) a_life = Some (s, tr) /\ calm (l0 false) a_life /\ l_started s = false /\ obsoleted s = true.
Proof. do 2 eexists. split; [vm_compute; reflexivity|]. split; [|split; reflexivity]. vm_compute. repeat split; intros; try discriminate; try reflexivity; repeat constructor. Qed.

(** Whatever the threads do, a socket is reported obsolete, so that the object pool may take it away or use it again, only after its
    on_close was called: a socket that was never started or that is being closed is not. *)
Definition after_on (p : cphase) : bool := match p with CCancel | CAfter | CObs => true | _ => false end.
Definition past_on (s : lst) : bool := l_obs s || existsb (fun x => after_on (fst x)) (l_cbs s).
Lemma exb_upd (f : cphase * N -> bool) l : forall j y, existsb f (upd j y l) = true -> existsb f l = true \/ exists z, y = Some z /\ f z = true.
Proof.
  intros j y H. unfold upd in H. rewrite !existsb_app in H. apply orb_true_iff in H as [H|H].
  - left. apply existsb_exists in H as (x & I & F). apply existsb_exists. exists x. split; [|exact F]. rewrite <- (firstn_skipn j l). apply in_or_app. auto.
  - apply orb_true_iff in H as [H|H].
    + right. destruct y as [z|]; cbn in H; [|discriminate H]. rewrite orb_false_r in H. exists z. auto.
    + left. apply existsb_exists in H as (x & I & F). apply existsb_exists. exists x. split; [|exact F]. rewrite <- (firstn_skipn (S j) l). apply in_or_app. auto.
Qed.
Lemma exb_nth (f : cphase * N -> bool) l j x : nth_error l j = Some x -> f x = true -> existsb f l = true.
Proof. intros H F. apply existsb_exists. exists x. split; [exact (nth_error_In _ _ H)|exact F]. Qed.
Lemma past_step s a s' tr : lstep s a = Some (s', tr) -> past_on s' = true -> past_on s = true \/ In EvOnClose tr.
Proof.
  intros H P. assert (E : l_obs s' = l_obs s -> l_cbs s' = l_cbs s -> past_on s = true) by (intros A B; unfold past_on in *; rewrite <- A, <- B; exact P).
  destruct a; cbn [lstep] in H.
  - injection H as <- <-. left. apply E; reflexivity.
  - unfold sstep in H. destruct (nth_error (l_starts s) i) as [[]|]; try discriminate H; try destruct (l_lock s); try discriminate H; injection H as <- <-; left; apply E; reflexivity.
  - destruct (nth_error (l_starts s) i) as [[]|]; try discriminate H; injection H as <- <-; left; apply E; reflexivity.
  - injection H as <- <-. left. apply E; reflexivity.
  - unfold cstep in H. destruct (nth_error (l_closes s) i) as [[]|]; try discriminate H; try destruct (l_lock s); try discriminate H; injection H as <- <-; left; apply E; unfold tim_stop, tim1, tim2; cbn; try destruct (l_on s); reflexivity.
  - injection H as <- <-. left. apply E; reflexivity.
  - destruct (l_ops s); try discriminate H; injection H as <- <-; left; apply E; reflexivity.
  - destruct (l_ops s); try discriminate H; injection H as <- <-; left; apply E; reflexivity.
  - destruct (l_wait s); try discriminate H; injection H as <- <-; left; apply E; reflexivity.
  - destruct (nth_error (l_q s) k) as [[w ok]|]; try discriminate H. injection H as <- <-. left. unfold past_on in *. cbn in P. rewrite existsb_app in P. apply orb_true_iff in P as [P|P]; [rewrite P; reflexivity|]. apply orb_true_iff in P as [P|P]; [rewrite P; apply orb_true_r|]. destruct (l_on s && ok); cbn in P; discriminate P.
  - unfold bstep in H. destruct (nth_error (l_cbs s) j) as [[p w]|] eqn:EJ; [|discriminate H].
    assert (U : forall y, existsb (fun x => after_on (fst x)) (upd j y (l_cbs s)) = true -> (forall z, y = Some z -> after_on (fst z) = true -> after_on p = true) -> past_on s = true).
    { intros y X Y. unfold past_on. destruct (exb_upd _ _ _ _ X) as [Z|(z & -> & Z)]; [rewrite Z; apply orb_true_r|]. rewrite (exb_nth _ _ _ _ EJ (Y z eq_refl Z)). apply orb_true_r. }
    assert (O : l_obs s = true -> past_on s = true) by (intros Z; unfold past_on; rewrite Z; reflexivity).
    assert (OP : after_on p = true -> past_on s = true) by (intros Z; unfold past_on; rewrite (exb_nth _ _ _ _ EJ Z); apply orb_true_r).
    destruct p.
    + injection H as <- <-. left. unfold past_on in P. cbn in P. apply orb_true_iff in P as [P|P]; [exact (O P)|]. refine (U _ P _). intros z Z. injection Z as <-. destruct (calls s =? 1)%nat; auto.
    + injection H as <- <-. right. left. reflexivity.
    + left. exact (OP eq_refl).
    + left. exact (OP eq_refl).
    + left. exact (OP eq_refl).
    + destruct (l_on s); injection H as <- <-; left; unfold past_on in P; cbn in P; apply orb_true_iff in P as [P|P]; try exact (O P); refine (U _ P _); intros z Z; [discriminate Z|injection Z as <-; auto].
    + injection H as <- <-. left. unfold past_on in P. cbn in P. apply orb_true_iff in P as [P|P]; [exact (O P)|]. refine (U _ P _). intros z Z. destruct (same_seq w (l_no s)); [|discriminate Z]. injection Z as <-. auto.
    + injection H as <- <-. left. unfold past_on in P. cbn in P. apply orb_true_iff in P as [P|P]; [exact (O P)|]. refine (U _ P _). intros z Z. discriminate Z.
  - injection H as <- <-. left. apply E; reflexivity.
Qed.
Lemma past_steps l : forall s s' tr, lsteps s l = Some (s', tr) -> past_on s' = true -> past_on s = true \/ In EvOnClose tr.
Proof.
  induction l as [|a l IH]; intros s s' tr H P; cbn [lsteps] in H; [injection H as <- <-; auto|].
  destruct (lstep s a) as [[s1 t1]|] eqn:E; [|discriminate H]. destruct (lsteps s1 l) as [[s2 t2]|] eqn:E2; [|discriminate H]. injection H as <- <-.
  destruct (IH _ _ _ E2 P) as [Q|Q]; [|right; apply in_or_app; auto]. destruct (past_step _ _ _ _ E Q) as [R|R]; [auto|right; apply in_or_app; auto].
Qed.
Theorem C33_obsolete_told need l s tr : lsteps (l0 need) l = Some (s, tr) -> obsoleted s = true -> In EvOnClose tr.
Proof.
  intros H B. unfold obsoleted in B. apply andb_true_iff in B as (B & _). apply andb_true_iff in B as (_ & B).
  destruct (past_steps _ _ _ _ H ltac:(unfold past_on; rewrite B; reflexivity)) as [X|X]; [discriminate X|exact X].
Qed.
Print Assumptions C33_obsolete_told.
Example C33_obsolete_told_example : (exists s tr, lsteps (l0 false) a_life = Some (s, tr) /\ obsoleted s = true /\ tr = [EvStarted; EvClosed; EvOnClose]) /\
  (exists s tr, lsteps (l0 false) (one_start ++ one_close ++ [LEnd]) = Some (s, tr) /\ obsoleted s = false /\ tr = [EvStarted; EvClosed]).
Proof. split; do 2 eexists; (split; [vm_compute; reflexivity|split; reflexivity]). Qed.

(** ** the lock *)
Definition hold_s (p : sphase) : bool := match p with SCheck | STry => false | _ => true end.
Definition K (s : lst) : Prop := (cnt hold_s (l_starts s) + cnt busy_c (l_closes s))%nat = b2n (l_lock s).
Lemma K_step s a s' tr : K s -> lstep s a = Some (s', tr) -> K s'.
Proof.
  unfold K. intros KS H. destruct a; cbn [lstep] in H.
  - inversion H; subst; clear H. lf. rewrite cnt_app. cbn. lia.
  - unfold sstep in H. destruct (nth_error (l_starts s) i) as [ph|] eqn:N; [|discriminate]. pose proof (fun x => cnt_upd hold_s i x _ _ N) as U. destruct ph.
    + inversion H; subst; clear H. lf. pose proof (U None). specialize (U (Some STry)). destruct (negb (l_started s) && negb (l_on s)); cbn [hold_s b2n] in *; lia.
    + inversion H; subst; clear H. pose proof (U None). specialize (U (Some STest)). destruct (l_lock s) eqn:LK; lf; rewrite ?LK; cbn [hold_s b2n] in *; lia.
    + inversion H; subst; clear H. lf. pose proof (U (Some SRel)). specialize (U (Some SDo)). destruct (l_started s); cbn [hold_s b2n] in *; lia.
    + inversion H; subst; clear H. lf. specialize (U (Some (SSet ok))). cbn [hold_s b2n] in *; lia.
    + pose proof (cnt_nth hold_s _ _ _ N eq_refl). destruct (l_lock s) eqn:LK; [discriminate|]. cbn [b2n] in *. lia.
    + inversion H; subst; clear H. lf. specialize (U (Some SRel)). cbn [hold_s b2n] in *; lia.
    + inversion H; subst; clear H. lf. specialize (U None). pose proof (cnt_nth hold_s _ _ _ N eq_refl). destruct (l_lock s); cbn [hold_s b2n] in *; lia.
  - destruct (nth_error (l_starts s) i) as [[]|] eqn:N; try discriminate. inversion H; subst; clear H. lf. pose proof (cnt_upd hold_s i (Some SSpin) _ _ N). cbn [hold_s b2n] in *. lia.
  - inversion H; subst; clear H. lf. rewrite cnt_app. cbn. lia.
  - unfold cstep in H. destruct (nth_error (l_closes s) i) as [ph|] eqn:N; [|discriminate]. pose proof (fun x => cnt_upd busy_c i x _ _ N) as U. destruct ph.
    + destruct (l_lock s) eqn:LK; [discriminate|]. inversion H; subst; clear H. lf. specialize (U (Some LTest)). cbn [busy_c b2n] in *. lia.
    + inversion H; subst; clear H. lf. pose proof (U (Some LSet)). specialize (U (Some LRel)). destruct (l_started s); cbn [busy_c b2n] in *; lia.
    + inversion H; subst; clear H. lf. specialize (U (Some LStop)). cbn [busy_c b2n] in *. lia.
    + inversion H; subst; clear H. specialize (U (Some LTim1)). unfold tim_stop. lf. destruct (l_on s); lf; cbn [busy_c b2n] in *; lia.
    + inversion H; subst; clear H. lf. specialize (U (Some LTim2)). cbn [busy_c b2n] in *. lia.
    + inversion H; subst; clear H. lf. specialize (U (Some LRel)). cbn [busy_c b2n] in *. lia.
    + inversion H; subst; clear H. lf. specialize (U None). pose proof (cnt_nth busy_c _ _ _ N eq_refl). destruct (l_lock s); cbn [busy_c b2n] in *; lia.
  - inversion H; subst. exact KS.
  - destruct (l_ops s); [discriminate|]. inversion H; subst. exact KS.
  - destruct (l_ops s); [discriminate|]. inversion H; subst. exact KS.
  - destruct (l_wait s); [|discriminate]. inversion H; subst. exact KS.
  - destruct (nth_error (l_q s) k) as [[w ok]|]; [|discriminate]. inversion H; subst. exact KS.
  - unfold bstep in H. destruct (nth_error (l_cbs s) j) as [[c w]|]; [|discriminate]. destruct c; inversion H; subst; clear H; try exact KS.
    + destruct (l_need s); lf; [rewrite cnt_app; cbn; lia|exact KS].
    + destruct (l_on s); exact KS.
  - inversion H; subst. exact KS.
Qed.
Lemma K_steps l : forall s s' tr, K s -> lsteps s l = Some (s', tr) -> K s'.
Proof.
  induction l as [|a l IH]; intros s s' tr KS H; cbn [lsteps] in H; [inversion H; subst; exact KS|]. destruct (lstep s a) as [[s1 t1]|] eqn:E; [|discriminate]. destruct (lsteps s1 l) as [[s2 t2]|] eqn:E2; [|discriminate]. inversion H; subst. exact (IH _ _ _ (K_step _ _ _ _ KS E) E2).
Qed.
(** In every execution at most one thread is inside start() or close() past the lock. *)
Theorem C34_exclusive need l s tr : lsteps (l0 need) l = Some (s, tr) -> (cnt hold_s (l_starts s) + cnt busy_c (l_closes s) <= 1)%nat.
Proof. intros H. pose proof (K_steps _ _ _ _ (eq_refl : K (l0 need)) H) as KS. unfold K in KS. rewrite KS. destruct (l_lock s); cbn; lia. Qed.
Print Assumptions C34_exclusive.
Example C34_exclusive_example : exists s tr, lsteps (l0 false) [LStart; LStart; LClose; LS 0 true; LS 1 true; LS 0 true; LS 0 true; LS 0 true; LS 0 true] = Some (s, tr) /\
  l_starts s = [SRel; STry] /\ l_closes s = [LTry] /\ lstep s (LC 0) = None /\ l_started s = true.
Proof. do 2 eexists. split; [vm_compute; reflexivity|]. repeat split. Qed.

(** Hence, in every execution, a started socket is not started again and only a started one is shut down. *)
Fixpoint turns (on : bool) (tr : list lev) : bool :=
  match tr with
  | [] => true
  | EvStarted :: tr' => negb on && turns true tr'
  | EvClosed :: tr' => on && turns false tr'
  | EvOnClose :: tr' => turns on tr'
  end.
Definition doing (p : sphase) : bool := match p with SDo | SSpin | SSet _ => true | _ => false end.
Definition D (s : lst) : Prop := ((0 < cnt doing (l_starts s))%nat -> l_started s = false) /\ ((0 < cnt is_lset (l_closes s))%nat -> l_started s = true).
Lemma doing_hold l : (cnt doing l <= cnt hold_s l)%nat.
Proof. induction l as [|c l IH]; [cbn; lia|]. rewrite !cnt_cons. destruct c; cbn [doing hold_s b2n]; lia. Qed.
Lemma D_step s a s' tr : K s -> D s -> lstep s a = Some (s', tr) -> D s' /\ match tr with [] => l_started s' = l_started s | [EvOnClose] => l_started s' = l_started s
  | [EvStarted] => l_started s = false /\ l_started s' = true | [EvClosed] => l_started s = true /\ l_started s' = false | _ => False end.
Proof.
  unfold K, D. intros KS [D1 D2] H. pose proof (doing_hold (l_starts s)) as DH. pose proof (close_busy (l_closes s)) as (CB & _).
  destruct a; cbn [lstep] in H.
  - inversion H; subst; clear H. lf. rewrite cnt_app. cbn. rewrite Nat.add_0_r. repeat split; auto.
  - unfold sstep in H. destruct (nth_error (l_starts s) i) as [ph|] eqn:N; [|discriminate].
    pose proof (fun x => cnt_upd doing i x _ _ N) as U. pose proof (fun x => cnt_upd hold_s i x _ _ N) as V.
    assert (W : doing ph = true -> (0 < cnt doing (l_starts s))%nat) by (intros E; exact (cnt_nth doing _ _ _ N E)).
    assert (X : hold_s ph = true -> (0 < cnt hold_s (l_starts s))%nat) by (intros E; exact (cnt_nth hold_s _ _ _ N E)).
    destruct ph; cbn [doing hold_s] in W, X.
    + inversion H; subst; clear H. lf. pose proof (U None). specialize (U (Some STry)). destruct (negb (l_started s) && negb (l_on s)); cbn [doing b2n] in *; repeat split; auto; intros; first [apply D1; lia | apply D2; lia].
    + inversion H; subst; clear H. pose proof (U None). specialize (U (Some STest)). destruct (l_lock s) eqn:LK; lf; cbn [doing b2n] in *; repeat split; auto; intros; first [apply D1; lia | apply D2; lia].
    + inversion H; subst; clear H. lf. specialize (X eq_refl). pose proof (U (Some SRel)). specialize (U (Some SDo)).
      assert (cnt is_lset (l_closes s) = O) by (destruct (l_lock s); cbn [b2n] in KS; lia).
      destruct (l_started s) eqn:ST; cbn [doing b2n] in *; repeat split; auto; intros; try lia; apply D1; lia.
    + inversion H; subst; clear H. lf. specialize (U (Some (SSet ok))). cbn [doing b2n] in *. repeat split; auto; intros; apply D1; lia.
    + specialize (X eq_refl). destruct (l_lock s) eqn:LK; [discriminate|]. cbn [b2n] in *. lia.
    + inversion H; subst; clear H. lf. specialize (U (Some SRel)). specialize (W eq_refl). specialize (X eq_refl). cbn [doing b2n] in U.
      assert (cnt is_lset (l_closes s) = O /\ cnt hold_s (l_starts s) = 1%nat) as [? ?] by (destruct (l_lock s); cbn [b2n] in KS; lia).
      specialize (D1 W). repeat split; intros; try lia; destruct ok0; auto.
    + inversion H; subst; clear H. lf. specialize (U None). cbn [doing b2n] in *. repeat split; auto; intros; apply D1; lia.
  - destruct (nth_error (l_starts s) i) as [[]|] eqn:N; try discriminate. inversion H; subst; clear H. lf. pose proof (cnt_upd doing i (Some SSpin) _ _ N). cbn [doing b2n] in *. repeat split; auto; intros; apply D1; lia.
  - inversion H; subst; clear H. lf. rewrite cnt_app. cbn. rewrite Nat.add_0_r. repeat split; auto.
  - unfold cstep in H. destruct (nth_error (l_closes s) i) as [ph|] eqn:N; [|discriminate].
    pose proof (fun x => cnt_upd is_lset i x _ _ N) as U. pose proof (fun x => cnt_upd busy_c i x _ _ N) as V.
    assert (W : is_lset ph = true -> (0 < cnt is_lset (l_closes s))%nat) by (intros E; exact (cnt_nth is_lset _ _ _ N E)).
    assert (X : busy_c ph = true -> (0 < cnt busy_c (l_closes s))%nat) by (intros E; exact (cnt_nth busy_c _ _ _ N E)).
    destruct ph; cbn [is_lset busy_c] in W, X.
    + destruct (l_lock s) eqn:LK; [discriminate|]. inversion H; subst; clear H. lf. specialize (U (Some LTest)). cbn [is_lset b2n] in *. repeat split; auto; intros; apply D2; lia.
    + inversion H; subst; clear H. lf. pose proof (U (Some LRel)). specialize (U (Some LSet)). specialize (X eq_refl).
      assert (cnt hold_s (l_starts s) = O) by (destruct (l_lock s); cbn [b2n] in KS; lia).
      destruct (l_started s) eqn:ST; cbn [is_lset b2n] in *; repeat split; auto; intros; try lia; apply D2; lia.
    + inversion H; subst; clear H. lf. specialize (U (Some LStop)). specialize (W eq_refl). specialize (X eq_refl). cbn [is_lset b2n] in U.
      assert (cnt hold_s (l_starts s) = O /\ cnt busy_c (l_closes s) = 1%nat) as [? ?] by (destruct (l_lock s); cbn [b2n] in KS; lia).
      specialize (D2 W). repeat split; intros; try lia; auto.
    + inversion H; subst; clear H. specialize (U (Some LTim1)). unfold tim_stop. lf. destruct (l_on s); lf; cbn [is_lset b2n] in *; repeat split; auto; intros; apply D2; lia.
    + inversion H; subst; clear H. lf. specialize (U (Some LTim2)). cbn [is_lset b2n] in *. repeat split; auto; intros; apply D2; lia.
    + inversion H; subst; clear H. lf. specialize (U (Some LRel)). cbn [is_lset b2n] in *. repeat split; auto; intros; apply D2; lia.
    + inversion H; subst; clear H. lf. specialize (U None). cbn [is_lset b2n] in *. repeat split; auto; intros; apply D2; lia.
  - inversion H; subst. repeat split; auto.
  - destruct (l_ops s); [discriminate|]. inversion H; subst. repeat split; auto.
  - destruct (l_ops s); [discriminate|]. inversion H; subst. repeat split; auto.
  - destruct (l_wait s); [|discriminate]. inversion H; subst. repeat split; auto.
  - destruct (nth_error (l_q s) k) as [[w ok]|]; [|discriminate]. inversion H; subst. repeat split; auto.
  - unfold bstep in H. destruct (nth_error (l_cbs s) j) as [[c w]|]; [|discriminate]. destruct c; inversion H; subst; clear H; try (repeat split; auto; fail).
    + destruct (l_need s); lf; [rewrite cnt_app; cbn; rewrite Nat.add_0_r|]; repeat split; auto.
    + destruct (l_on s); repeat split; auto.
  - inversion H; subst. repeat split; auto.
Qed.
Lemma D_steps l : forall s s' tr, K s -> D s -> lsteps s l = Some (s', tr) -> turns (l_started s) tr = true.
Proof.
  induction l as [|a l IH]; intros s s' tr KS DS H; cbn [lsteps] in H; [inversion H; subst; reflexivity|]. destruct (lstep s a) as [[s1 t1]|] eqn:E; [|discriminate]. destruct (lsteps s1 l) as [[s2 t2]|] eqn:E2; [|discriminate]. inversion H; subst.
  destruct (D_step _ _ _ _ KS DS E) as [D1 T]. pose proof (IH _ _ _ (K_step _ _ _ _ KS E) D1 E2) as R.
  destruct t1 as [|[] [|? ?]]; cbn [app turns]; try contradiction; [rewrite <- T; exact R| | |rewrite <- T; exact R]; destruct T as [T1 T2]; rewrite T1; rewrite T2 in R; exact R.
Qed.
Theorem C34_turns need l s tr : lsteps (l0 need) l = Some (s, tr) -> turns false tr = true.
Proof. intros H. refine (D_steps l (l0 need) s tr eq_refl _ H). split; cbn; lia. Qed.
Print Assumptions C34_turns.
(** two threads start at the same time, another one shuts down *)
Example C34_turns_example : exists s tr, lsteps (l0 false) ([LStart; LStart; LS 0 true; LS 1 true; LS 0 true; LS 0 true; LS 0 true; LS 0 true; LS 0 true; LS 0 true; LS 0 true; LS 0 true] ++ one_close) = Some (s, tr) /\
  tr = [EvStarted; EvClosed] /\ l_starts s = [].
Proof. do 2 eexists. split; [vm_compute; reflexivity|]. split; reflexivity. Qed.

(** ** on_close is called *)
(** what a continuation may consist of: threads inside these functions, the timer, and operations ending *)
Definition helper (a : lact) : bool := match a with LS _ _ | LC _ | LEnd | LExpire | LBegin _ | LCb _ => true | _ => false end.
Fixpoint wsum {A} (w : A -> nat) (l : list A) : nat := match l with [] => O | x :: l' => (w x + wsum w l')%nat end.
Lemma wsum_app {A} (w : A -> nat) l1 l2 : wsum w (l1 ++ l2) = (wsum w l1 + wsum w l2)%nat.
Proof. induction l1 as [|x l1 IH]; [reflexivity|]. cbn [app wsum]. rewrite IH. lia. Qed.
Lemma wsum_upd {A} (w : A -> nat) i (x : option A) l y : nth_error l i = Some y -> (wsum w (upd i x l) + w y = wsum w l + match x with Some z => w z | None => 0 end)%nat.
Proof.
  unfold upd. revert i. induction l as [|a l IH]; intros [|i] H; try discriminate.
  - inversion H; subst. cbn [firstn skipn app]. destruct x; cbn [app wsum]; lia.
  - cbn [nth_error] in H. specialize (IH i H). cbn [firstn app wsum]. change (skipn (S (S i)) (a :: l)) with (skipn (S i) l). lia.
Qed.
Definition ws (p : sphase) : nat := match p with SRel => 1 | _ => 0 end.
Definition wc (p : lphase) : nat := match p with LTry => 3 | LTest => 2 | LRel => 1 | LSet => 40 | LStop => 32 | LTim1 => 31 | LTim2 => 30 end.
Definition wb (x : cphase * N) : nat := match fst x with CAgain => 25 | CTest => 22 | COn => 21 | CCancel => 5 | CAfter => 4 | CObs => 3 | CSeq => 2 | COff => 1 end.
Definition wq (x : N * bool) : nat := 23.
Definition weight (s : lst) : nat := (wsum ws (l_starts s) + wsum wc (l_closes s) + wsum wb (l_cbs s) + 24 * w1 (l_wait s) + wsum wq (l_q s) + l_ops s)%nat.
Definition is_srel (p : sphase) : bool := match p with SRel => true | _ => false end.
Lemma srel_busy l : (cnt busy_s l <= cnt hot l + cnt is_srel l)%nat.
Proof. induction l as [|c l IH]; [cbn; lia|]. rewrite !cnt_cons. destruct c; cbn [hot busy_s is_srel b2n]; lia. Qed.
Definition ahead (s s' : lst) (a : lact) (tr : list lev) : Prop :=
  helper a = true /\ tcalm s a /\ lstep s a = Some (s', tr) /\ excl s' /\ (In EvOnClose tr \/ (tr = [] /\ (weight s' < weight s)%nat)).
Lemma cb_tail s j c w : nth_error (l_cbs s) j = Some (c, w) -> tokb (c, w) = false -> excl s -> exists a s' tr, ahead s s' a tr.
Proof.
  intros N T X. pose proof (fun x => wsum_upd wb j x _ _ N) as W. exists (LCb j). unfold ahead. cbn [lstep helper tcalm]. unfold bstep. rewrite N. unfold excl, weight in *.
  destruct c; cbn [tokb fst] in T; try discriminate; do 2 eexists; (split; [reflexivity|]); (split; [exact I|]); (split; [reflexivity|]); split; lf; try exact X; try (destruct (l_need s); lf; rewrite ?cnt_app; cbn in *; lia); right; split; try reflexivity.
  - specialize (W (Some (CAfter, w))). cbn [wb fst] in *. lia.
  - specialize (W (Some (CObs, w))). destruct (l_need s); lf; rewrite ?wsum_app; cbn [wb fst ws wsum] in *; lia.
  - specialize (W (Some (CSeq, w))). cbn [wb fst] in *. lia.
  - pose proof (W None). specialize (W (Some (COff, w))). destruct (same_seq w (l_no s)); cbn [wb fst] in *; lia.
  - specialize (W None). cbn [wb fst] in *. lia.
Qed.
Lemma goes_ahead s : J s Closing -> K s -> excl s -> exists a s' tr, ahead s s' a tr.
Proof.
  intros JS KS X. pose proof JS as [A B C D E F G]. cbn [is_onp is_clo] in *.
  assert (H0 : cnt hot (l_starts s) = O) by lia. pose proof (srel_busy (l_starts s)) as SB. destruct (close_busy (l_closes s)) as (CB1 & CB2).
  destruct (Nat.eq_dec (cnt is_srel (l_starts s)) O) as [SR|SR].
  2:{ destruct (cnt_pos is_srel (l_starts s)) as (i & y & N & Y); [lia|]. destruct y; try discriminate. exists (LS i true). unfold ahead. cbn [lstep helper tcalm]. unfold sstep. rewrite N. do 2 eexists. split; [reflexivity|]. split; [exact I|]. split; [reflexivity|].
      pose proof (wsum_upd ws i None _ _ N). pose proof (cnt_upd busy_s i None _ _ N). unfold excl, weight in *. lf. cbn [ws busy_s b2n] in *. split; [lia|]. right. split; [reflexivity|lia]. }
  assert (BS : cnt busy_s (l_starts s) = O) by lia.
  destruct (Nat.eq_dec (cnt busy_c (l_closes s)) O) as [BC|BC].
  2:{ destruct (cnt_pos busy_c (l_closes s)) as (i & y & N & Y); [lia|]. pose proof (fun x => wsum_upd wc i x _ _ N) as W. pose proof (fun x => cnt_upd busy_c i x _ _ N) as U. destruct y; try discriminate.
      - exists (LC i). unfold ahead. cbn [lstep helper tcalm]. unfold cstep. rewrite N. do 2 eexists. split; [reflexivity|]. split; [discriminate|]. split; [reflexivity|]. rewrite A. specialize (W (Some LRel)). specialize (U (Some LRel)). unfold excl, weight in *. lf. cbn [wc busy_c b2n] in *. split; [lia|]. right. split; [reflexivity|lia].
      - exfalso. pose proof (cnt_nth is_lset _ _ _ N eq_refl) as Z. specialize (E Z). discriminate.
      - pose proof (cnt_nth is_early _ _ _ N eq_refl) as Z. exists (LC i). unfold ahead. cbn [lstep helper tcalm]. unfold cstep. rewrite N. do 2 eexists. split; [reflexivity|]. split; [discriminate|]. split; [reflexivity|]. specialize (W (Some LTim1)). specialize (U (Some LTim1)). unfold excl, weight, tim_stop in *. lf.
        assert (WN : l_wait s = None) by (destruct (l_wait s); [cbn [w1] in *; lia|reflexivity]). destruct (l_on s); lf; unfold cancelled; lf; rewrite ?WN in *; cbn [wc busy_c b2n w1] in *; (split; [lia|]); right; (split; [reflexivity|lia]).
      - pose proof (cnt_nth is_early _ _ _ N eq_refl) as Z. destruct (l_cbs s) as [|[c w] cs] eqn:CS.
        + exists (LC i). unfold ahead. cbn [lstep helper tcalm]. unfold cstep. rewrite N. do 2 eexists. split; [reflexivity|]. split; [intros _; exact CS|]. split; [reflexivity|]. specialize (W (Some LTim2)). specialize (U (Some LTim2)). unfold excl, weight in *. lf.
          assert (WN : l_wait s = None) by (destruct (l_wait s); [cbn [w1] in *; lia|reflexivity]). unfold cancelled; lf; rewrite ?WN, ?CS in *; cbn [wc busy_c b2n w1] in *; (split; [lia|]); right; (split; [reflexivity|lia]).
        + apply (cb_tail s O c w); [rewrite CS; reflexivity| |exact X]. rewrite cnt_cons in B. destruct (tokb (c, w)); [cbn [b2n] in B; lia|reflexivity].
      - pose proof (cnt_nth is_ltim2 _ _ _ N eq_refl) as Z. exists (LC i). unfold ahead. cbn [lstep helper tcalm]. unfold cstep. rewrite N. do 2 eexists. split; [reflexivity|]. split; [discriminate|]. split; [reflexivity|]. specialize (W (Some LRel)). specialize (U (Some LRel)). unfold excl, weight in *. lf. cbn [wc busy_c b2n w1] in *. split; [lia|]. right. split; [reflexivity|]. lia.
      - exists (LC i). unfold ahead. cbn [lstep helper tcalm]. unfold cstep. rewrite N. do 2 eexists. split; [reflexivity|]. split; [discriminate|]. split; [reflexivity|]. specialize (W None). specialize (U None). unfold excl, weight in *. lf. cbn [wc busy_c b2n] in *. split; [lia|]. right. split; [reflexivity|lia]. }
  assert (HS : (cnt hold_s (l_starts s) <= cnt busy_s (l_starts s))%nat). { clear. induction (l_starts s) as [|c l IH]; [cbn; lia|]. rewrite !cnt_cons. destruct c; cbn [hold_s busy_s b2n]; lia. }
  assert (LK : l_lock s = false) by (unfold K in KS; destruct (l_lock s); [cbn [b2n] in KS; lia|reflexivity]).
  destruct (l_closes s) as [|y cl] eqn:CL.
  2:{ assert (Y : y = LTry) by (rewrite cnt_cons in BC; destruct y; cbn [busy_c b2n] in BC; try lia; reflexivity). subst y. exists (LC 0). unfold ahead. cbn [lstep helper tcalm]. unfold cstep. rewrite CL, LK. cbn [nth_error]. do 2 eexists. split; [reflexivity|]. split; [discriminate|]. split; [reflexivity|].
      unfold excl, weight, upd in *. lf. cbn [firstn skipn app wsum] in *. rewrite ?CL, ?cnt_cons in *. cbn [wc busy_c b2n wsum] in *. split; [lia|]. right. split; [reflexivity|lia]. }
  destruct (l_ops s) as [|n] eqn:OP.
  2:{ exists LEnd. unfold ahead. cbn [lstep helper tcalm]. rewrite OP. do 2 eexists. split; [reflexivity|]. split; [exact I|]. split; [reflexivity|]. unfold excl, weight in *. lf. split; [rewrite CL; lia|]. right. split; [reflexivity|lia]. }
  assert (XX : excl s) by exact X. unfold excl in X.
  destruct (l_wait s) as [w|] eqn:WT.
  { exists LExpire. unfold ahead. cbn [lstep helper tcalm]. rewrite WT. do 2 eexists. split; [reflexivity|]. split; [exact I|]. split; [reflexivity|]. unfold excl, weight in *. lf. split; [exact XX|]. right. split; [reflexivity|]. rewrite wsum_app, WT. unfold wq; cbn [w1 wsum]. lia. }
  cbn [w1] in *. destruct (l_q s) as [|[w ok] q] eqn:QE.
  2:{ exists (LBegin 0). unfold ahead. cbn [lstep helper tcalm]. rewrite QE. cbn [nth_error]. do 2 eexists. split; [reflexivity|]. split; [exact I|]. split; [reflexivity|]. unfold excl, weight, wq in *. lf. split; [exact XX|]. right. split; [reflexivity|]. rewrite wsum_app, QE. unfold remove_at. cbn [firstn skipn app wsum]. destruct (l_on s && ok); cbn [wb fst wsum]; lia. }
  change (cnt snd (@nil (N * bool))) with O in *. change (cnt tokc []) with O in *. destruct (cnt_pos tokb (l_cbs s)) as (j & [c w] & N & Y); [lia|]. destruct G as (G1 & G2); [lia|].
  pose proof (fun x => wsum_upd wb j x _ _ N) as W. assert (CA : calls s = 1%nat) by (unfold calls; rewrite OP, CL, WT, QE; cbn [length]; lia).
  exists (LCb j). unfold ahead. cbn [lstep helper tcalm]. unfold bstep. rewrite N. destruct c; try discriminate.
  - do 2 eexists. split; [reflexivity|]. split; [exact I|]. split; [reflexivity|]. rewrite CA. cbn [Nat.eqb]. specialize (W (Some (COn, w))). unfold excl, weight in *. lf. split; [exact XX|]. right. split; [reflexivity|]. cbn [wb fst] in W. lia.
  - do 2 eexists. split; [reflexivity|]. split; [exact I|]. split; [reflexivity|]. unfold excl in *. lf. split; [exact XX|]. left. left. reflexivity.
  - rewrite G1. do 2 eexists. split; [reflexivity|]. split; [exact I|]. split; [reflexivity|]. specialize (W None). unfold excl, weight in *. lf. split; [exact XX|]. right. split; [reflexivity|]. unfold cancelled. lf. rewrite WT. cbn [w1 wb fst] in *. lia.
Qed.
Lemma reaches_onclose n : forall s, (weight s <= n)%nat -> J s Closing -> K s -> excl s -> exists l s' tr, forallb helper l = true /\ calm s l /\ lsteps s l = Some (s', tr) /\ In EvOnClose tr.
Proof.
  induction n as [|n IH]; intros s W JS KS X; destruct (goes_ahead s JS KS X) as (a & s1 & t1 & Ha & Ta & Sa & Xa & Oa).
  - destruct Oa as [Oa|(_ & Oa)]; [|lia]. exists [a], s1, t1. cbn [forallb calm lsteps]. rewrite Ha, Sa, app_nil_r. auto.
  - destruct Oa as [Oa|(-> & Oa)].
    + exists [a], s1, t1. cbn [forallb calm lsteps]. rewrite Ha, Sa, app_nil_r. auto.
    + destruct (J_step _ _ _ _ _ JS X Xa Ta Sa) as (p & L & J1). cbn in L. inversion L; subst p. destruct (IH s1 ltac:(lia) J1 (K_step _ _ _ _ KS Sa) Xa) as (l & s2 & t2 & Hl & Cl & Sl & Ol).
      exists (a :: l), s2, t2. cbn [forallb calm lsteps]. rewrite Ha, Sa, Sl. auto.
Qed.
(** Once shut down, on_close will be called without any further call of the application: the threads inside these functions and the
    timer only have to go on, and the operations in progress to end. *)
Theorem C33_eventually_partial need l s tr : lsteps (l0 need) l = Some (s, tr) -> calm (l0 need) l -> life Off tr = Some Closing ->
  exists l2 s2 tr2, forallb helper l2 = true /\ lsteps s l2 = Some (s2, tr2) /\ calm s l2 /\ In EvOnClose tr2.
Proof.
  intros H C L. destruct (J_steps _ _ _ _ _ (J_init need) (excl_init need) C H) as (p & L' & JS & X). rewrite L in L'. inversion L'; subst p.
  destruct (reaches_onclose _ s (le_n _) JS (K_steps _ _ _ _ (eq_refl : K (l0 need)) H) X) as (l2 & s2 & t2 & A & B & D & E). exists l2, s2, t2. auto.
Qed.
Print Assumptions C33_eventually_partial.
Example C33_eventually_partial_example : let l := a_life ++ one_start ++ [LClose; LClose; LC 1; LC 1; LC 1; LC 1] in
  exists s tr, lsteps (l0 true) l = Some (s, tr) /\ calm (l0 true) l /\ life Off tr = Some Closing /\ l_ops s = 1%nat /\ l_closes s = [LTry; LTim1].
Proof. do 2 eexists. split; [vm_compute; reflexivity|]. split; [|repeat split]. vm_compute. repeat split; intros; try discriminate; try reflexivity; repeat constructor. Qed.

(** ** no deadlock *)
Definition is_spin (p : sphase) : bool := match p with SSpin => true | _ => false end.
(** close() always gets the lock in the end: whatever happened, the lock can become free again *)
Definition C34_statement : Prop := forall need l s tr, lsteps (l0 need) l = Some (s, tr) -> exists l2 s2 tr2, lsteps s l2 = Some (s2, tr2) /\ l_lock s2 = false.
Definition stuck (s : lst) : Prop := K s /\ (0 < cnt is_spin (l_starts s))%nat /\ tokens s = O.
Lemma spin_hold l : (cnt is_spin l <= cnt hold_s l)%nat.
Proof. induction l as [|c l IH]; [cbn; lia|]. rewrite !cnt_cons. destruct c; cbn [is_spin hold_s b2n]; lia. Qed.
Lemma stuck_lock s : stuck s -> l_lock s = true /\ cnt busy_c (l_closes s) = O.
Proof. intros (KS & SP & _). unfold K in KS. pose proof (spin_hold (l_starts s)). destruct (l_lock s); cbn [b2n] in KS; [split; [reflexivity|lia]|lia]. Qed.
Lemma tok_app_step s a s' tr : stuck s -> lstep s a = Some (s', tr) -> tr = [] /\ (0 < cnt is_spin (l_starts s'))%nat.
Proof.
  intros ST H. destruct (stuck_lock s ST) as (LK & BC). destruct ST as (KS & SP & TK). unfold K in KS. rewrite LK in KS. cbn [b2n] in KS. pose proof (spin_hold (l_starts s)) as SH. destruct a; cbn [lstep] in H.
  - inversion H; subst; clear H. lf. rewrite cnt_app. split; [reflexivity|lia].
  - unfold sstep in H. destruct (nth_error (l_starts s) i) as [ph|] eqn:N; [|discriminate]. pose proof (fun x => cnt_upd is_spin i x _ _ N) as U.
    assert (HR : hold_s ph = true -> is_spin ph = true).
    { intros HH. pose proof (cnt_rem hold_s _ _ _ N) as R1. pose proof (cnt_rem is_spin _ _ _ N) as R2. pose proof (spin_hold (remove_at i (l_starts s))). rewrite HH in R1. cbn [b2n] in R1. destruct (is_spin ph); [reflexivity|]. cbn [b2n] in R2. lia. }
    destruct ph; cbn [hold_s is_spin] in HR; try (specialize (HR eq_refl); discriminate).
    + inversion H; subst; clear H. lf. split; [reflexivity|]. pose proof (U None). specialize (U (Some STry)). destruct (negb (l_started s) && negb (l_on s)); cbn [is_spin b2n] in *; lia.
    + inversion H; subst; clear H. rewrite LK. lf. split; [reflexivity|]. specialize (U None). cbn [is_spin b2n] in *; lia.
    + rewrite LK in H. discriminate.
  - destruct (nth_error (l_starts s) i) as [[]|] eqn:N; try discriminate. inversion H; subst; clear H. lf. split; [reflexivity|]. pose proof (cnt_upd is_spin i (Some SSpin) _ _ N). cbn [is_spin b2n] in *. lia.
  - inversion H; subst; clear H. lf. split; [reflexivity|exact SP].
  - unfold cstep in H. destruct (nth_error (l_closes s) i) as [ph|] eqn:N; [|discriminate]. destruct ph; try (pose proof (cnt_nth busy_c _ _ _ N eq_refl); lia). rewrite LK in H. discriminate.
  - inversion H; subst. auto.
  - destruct (l_ops s); [discriminate|]. inversion H; subst. auto.
  - destruct (l_ops s); [discriminate|]. inversion H; subst. auto.
  - destruct (l_wait s); [|discriminate]. inversion H; subst. auto.
  - destruct (nth_error (l_q s) k) as [[w ok]|]; [|discriminate]. inversion H; subst. auto.
  - unfold tokens, ttok in TK. unfold bstep in H. destruct (nth_error (l_cbs s) j) as [[c w]|] eqn:N; [|discriminate]. destruct c; try (pose proof (cnt_nth tokb _ _ _ N eq_refl); lia); inversion H; subst; clear H; lf; (split; [reflexivity|]); try exact SP. destruct (l_need s); lf; rewrite ?cnt_app; lia.
  - inversion H; subst. auto.
Qed.
Lemma stuck_forever l : forall s s' tr, stuck s -> lsteps s l = Some (s', tr) -> tr = [] /\ stuck s'.
Proof.
  induction l as [|a l IH]; intros s s' tr ST H; cbn [lsteps] in H; [inversion H; subst; auto|]. destruct (lstep s a) as [[s1 t1]|] eqn:E; [|discriminate]. destruct (lsteps s1 l) as [[s2 t2]|] eqn:E2; [|discriminate]. inversion H; subst.
  destruct (tok_app_step _ _ _ _ ST E) as (-> & SP). assert (ST1 : stuck s1). { destruct ST as (KS & _ & TK). split; [exact (K_step _ _ _ _ KS E)|]. split; [exact SP|]. pose proof (tok_step _ _ _ _ E) as T. cbn in T. lia. }
  destruct (IH _ _ _ ST1 E2) as (-> & ST2). auto.
Qed.
(** False: when on_connect(), called within start(), shuts its socket down and the strand executes that at once, start() never
    returns, and neither does any call of close(), whatever happens; the socket is never started, closed or told on_close. *)
Theorem C34_deadlock_refuted : exists l s tr, lsteps (l0 false) l = Some (s, tr) /\
  forall l2 s2 tr2, lsteps s l2 = Some (s2, tr2) -> tr2 = [] /\ l_lock s2 = true /\ (0 < cnt is_spin (l_starts s2))%nat /\ forallb (fun p => negb (busy_c p)) (l_closes s2) = true.
Proof.
  exists [LStart; LS 0 true; LS 0 true; LS 0 true; LInline 0]. do 2 eexists. split; [vm_compute; reflexivity|]. intros l2 s2 tr2 H. apply stuck_forever in H as (-> & ST); [|repeat split; vm_compute; constructor].
  split; [reflexivity|]. destruct (stuck_lock _ ST) as (A & B). destruct ST as (_ & C & _). split; [exact A|]. split; [exact C|]. clear - B. induction (l_closes s2) as [|c l IH]; [reflexivity|]. rewrite cnt_cons in B. cbn [forallb]. destruct (busy_c c); cbn [b2n negb] in *; [lia|]. apply IH. lia.
Qed.
Print Assumptions C34_deadlock_refuted.
Theorem C34_statement_refuted : ~ C34_statement.
Proof. intros H. destruct C34_deadlock_refuted as (l & s & tr & R & D). destruct (H _ _ _ _ R) as (l2 & s2 & tr2 & R2 & L). destruct (D _ _ _ R2) as (_ & L2 & _). rewrite L in L2. discriminate. Qed.
Print Assumptions C34_statement_refuted.

(** Otherwise: the lock is released by the thread that holds it, which never has to wait for anything. *)
Definition not_inline (a : lact) : bool := match a with LInline _ => false | _ => true end.
Lemma no_spin_step s a s' tr : not_inline a = true -> cnt is_spin (l_starts s) = O -> lstep s a = Some (s', tr) -> cnt is_spin (l_starts s') = O.
Proof.
  intros NI SP H. destruct a; cbn [lstep not_inline] in *; try discriminate.
  - inversion H; subst; clear H. lf. rewrite cnt_app, SP. reflexivity.
  - unfold sstep in H. destruct (nth_error (l_starts s) i) as [ph|] eqn:N; [|discriminate]. pose proof (fun x => cnt_upd is_spin i x _ _ N) as U. destruct ph.
    + inversion H; subst; clear H. lf. pose proof (U None). specialize (U (Some STry)). destruct (negb (l_started s) && negb (l_on s)); cbn [is_spin b2n] in *; lia.
    + inversion H; subst; clear H. pose proof (U None). specialize (U (Some STest)). destruct (l_lock s); lf; cbn [is_spin b2n] in *; lia.
    + inversion H; subst; clear H. lf. pose proof (U (Some SDo)). specialize (U (Some SRel)). destruct (l_started s); cbn [is_spin b2n] in *; lia.
    + inversion H; subst; clear H. lf. specialize (U (Some (SSet ok))). cbn [is_spin b2n] in *; lia.
    + pose proof (cnt_nth is_spin _ _ _ N eq_refl). lia.
    + inversion H; subst; clear H. lf. specialize (U (Some SRel)). cbn [is_spin b2n] in *; lia.
    + inversion H; subst; clear H. lf. specialize (U None). cbn [is_spin b2n] in *; lia.
  - inversion H; subst; clear H. exact SP.
  - unfold cstep in H. destruct (nth_error (l_closes s) i) as [ph|] eqn:N; [|discriminate]. destruct ph; try (destruct (l_lock s); [discriminate|]); inversion H; subst; clear H; unfold tim_stop; lf; try (destruct (l_on s)); exact SP.
  - inversion H; subst. exact SP.
  - destruct (l_ops s); [discriminate|]. inversion H; subst. exact SP.
  - destruct (l_ops s); [discriminate|]. inversion H; subst. exact SP.
  - destruct (l_wait s); [|discriminate]. inversion H; subst. exact SP.
  - destruct (nth_error (l_q s) k) as [[w ok]|]; [|discriminate]. inversion H; subst. exact SP.
  - unfold bstep in H. destruct (nth_error (l_cbs s) j) as [[c w]|] eqn:N; [|discriminate]. destruct c; inversion H; subst; clear H; try exact SP; [destruct (l_need s)|destruct (l_on s)]; lf; try exact SP. rewrite cnt_app, SP. reflexivity.
  - inversion H; subst. exact SP.
Qed.
Lemma no_spin_steps l : forall s s' tr, forallb not_inline l = true -> cnt is_spin (l_starts s) = O -> lsteps s l = Some (s', tr) -> cnt is_spin (l_starts s') = O.
Proof.
  induction l as [|a l IH]; intros s s' tr NI SP H; cbn [lsteps] in H; [inversion H; subst; auto|]. cbn [forallb] in NI. apply andb_true_iff in NI as (NA & NI). destruct (lstep s a) as [[s1 t1]|] eqn:E; [|discriminate]. destruct (lsteps s1 l) as [[s2 t2]|] eqn:E2; [|discriminate]. inversion H; subst.
  exact (IH _ _ _ NI (no_spin_step _ _ _ _ NA SP E) E2).
Qed.
Definition hw (p : sphase) : nat := match p with STest => 4 | SDo => 3 | SSet _ => 2 | SRel => 1 | _ => 0 end.
Definition cw (p : lphase) : nat := match p with LTry => 0 | LTest => 6 | LSet => 5 | LStop => 4 | LTim1 => 3 | LTim2 => 2 | LRel => 1 end.
Definition in_functions (a : lact) : bool := match a with LS _ _ | LC _ => true | _ => false end.
Lemma releases n : forall s, (wsum hw (l_starts s) + wsum cw (l_closes s) <= n)%nat -> K s -> cnt is_spin (l_starts s) = O -> exists l s' tr, forallb in_functions l = true /\ lsteps s l = Some (s', tr) /\ l_lock s' = false.
Proof.
  induction n as [n IH] using lt_wf_ind. intros s W KS SP. destruct (l_lock s) eqn:LK; [|exists [], s, []; auto].
  assert (ST : exists a s1 t1, in_functions a = true /\ lstep s a = Some (s1, t1) /\ (wsum hw (l_starts s1) + wsum cw (l_closes s1) < wsum hw (l_starts s) + wsum cw (l_closes s))%nat).
  { unfold K in KS. rewrite LK in KS. cbn [b2n] in KS. destruct (Nat.eq_dec (cnt hold_s (l_starts s)) O) as [HS|HS].
    - destruct (cnt_pos busy_c (l_closes s)) as (i & y & N & Y); [lia|]. exists (LC i). cbn [lstep in_functions]. unfold cstep. rewrite N. pose proof (fun x => wsum_upd cw i x _ _ N) as U. destruct y; try discriminate; do 2 eexists; (split; [reflexivity|]); (split; [reflexivity|]); unfold tim_stop; lf.
      + pose proof (U (Some LSet)). specialize (U (Some LRel)). destruct (l_started s); cbn [cw] in *; lia.
      + specialize (U (Some LStop)). cbn [cw] in *; lia.
      + specialize (U (Some LTim1)). destruct (l_on s); lf; cbn [cw] in *; lia.
      + specialize (U (Some LTim2)). cbn [cw] in *; lia.
      + specialize (U (Some LRel)). cbn [cw] in *; lia.
      + specialize (U None). cbn [cw] in *; lia.
    - destruct (cnt_pos hold_s (l_starts s)) as (i & y & N & Y); [lia|]. exists (LS i true). cbn [lstep in_functions]. unfold sstep. rewrite N. pose proof (fun x => wsum_upd hw i x _ _ N) as U. destruct y; try discriminate.
      + do 2 eexists; (split; [reflexivity|]); (split; [reflexivity|]); lf. pose proof (U (Some SRel)). specialize (U (Some SDo)). destruct (l_started s); cbn [hw] in *; lia.
      + do 2 eexists; (split; [reflexivity|]); (split; [reflexivity|]); lf. specialize (U (Some (SSet true))). cbn [hw] in *; lia.
      + pose proof (cnt_nth is_spin _ _ _ N eq_refl). lia.
      + do 2 eexists; (split; [reflexivity|]); (split; [reflexivity|]); lf. specialize (U (Some SRel)). cbn [hw] in *; lia.
      + do 2 eexists; (split; [reflexivity|]); (split; [reflexivity|]); lf. specialize (U None). cbn [hw] in *; lia. }
  destruct ST as (a & s1 & t1 & F & E & LT). destruct (IH (wsum hw (l_starts s1) + wsum cw (l_closes s1))%nat ltac:(lia) s1 (le_n _) (K_step _ _ _ _ KS E)) as (l & s2 & t2 & Fl & El & Ll).
  - apply (no_spin_step s a s1 t1); [destruct a; try discriminate; reflexivity|exact SP|exact E].
  - exists (a :: l), s2, (t1 ++ t2). cbn [forallb lsteps]. rewrite F, E, El. auto.
Qed.
Theorem C34_released_partial need l s tr : lsteps (l0 need) l = Some (s, tr) -> forallb not_inline l = true -> exists l2 s2 tr2, forallb in_functions l2 = true /\ lsteps s l2 = Some (s2, tr2) /\ l_lock s2 = false.
Proof. intros H NI. exact (releases _ s (le_n _) (K_steps _ _ _ _ (eq_refl : K (l0 need)) H) (no_spin_steps _ _ _ _ NI (eq_refl : cnt is_spin (l_starts (l0 need)) = O) H)). Qed.
Print Assumptions C34_released_partial.
Example C34_released_partial_example : let l := one_start ++ [LClose; LClose; LC 1; LC 1; LC 1; LStart] in exists s tr, lsteps (l0 false) l = Some (s, tr) /\ forallb not_inline l = true /\ l_lock s = true /\ lstep s (LC 0) = None.
Proof. do 2 eexists. split; [vm_compute; reflexivity|]. repeat split. Qed.
