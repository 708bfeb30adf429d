(** C27: synchronous sends. *)
From Coq Require Import List Bool Arith Lia.
From Verif Require Import M_SyncSend.
Import ListNotations.

(** ** specification *)
Definition wired (tr : list zev) : list item := flat_map (fun e => match e with EWire i => [i] | _ => [] end) tr.
(** message i of call k was handed over to the OS *)
Definition handed (tr : list zev) (k i : nat) : Prop := exists p, In (EWire (mk_i k i p)) tr.
(** SUCCESS means that all messages of the call were handed over *)
Definition truthful (tr : list zev) : Prop := forall k n i, In (ECall k n) tr -> In (EReturn k Success) tr -> i < n -> handed tr k i.
(** the call is waiting for its message *)
Definition waiting (s : zst) (k : nat) : Prop := exists c, nth_error (calls s) k = Some c /\ sync c = true /\ ret c = None.

(** ** list lemmas *)
Lemma nth_upd {A} f : forall (l : list A) k j, nth_error (upd l k f) j = if j =? k then option_map f (nth_error l j) else nth_error l j.
Proof.
  unfold upd. induction l as [|x l IH]; intros k j.
  - rewrite firstn_nil, skipn_nil. cbn [app]. destruct j, (_ =? k); reflexivity.
  - destruct k as [|k]; destruct j as [|j]; cbn [firstn skipn app nth_error]; try reflexivity. rewrite IH. reflexivity.
Qed.
Lemma length_upd {A} f (l : list A) k : length (upd l k f) = length l.
Proof.
  unfold upd. rewrite app_length, firstn_length. pose proof (skipn_length k l) as L. destruct (skipn k l); cbn in *; lia.
Qed.
Definition hits (l : list item) (j : nat) : bool := existsb (fun i => pr i && (ow i =? j)) l.
Lemma nth_complete r : forall l cs j, nth_error (complete r l cs) j = if hits l j then option_map (set_val r) (nth_error cs j) else nth_error cs j.
Proof.
  induction l as [|i l IH]; intros cs j; [reflexivity|]. unfold complete, hits in *. cbn [fold_left existsb]. rewrite IH. destruct (pr i); cbn [andb orb]; [|reflexivity]. rewrite nth_upd. rewrite (Nat.eqb_sym j). destruct (ow i =? j); cbn [orb]; [|reflexivity].
  destruct (existsb _ l); [|reflexivity]. destruct (nth_error cs j); reflexivity.
Qed.
Lemma length_complete r : forall l cs, length (complete r l cs) = length cs.
Proof. induction l as [|i l IH]; intros cs; [reflexivity|]. unfold complete in *. cbn [fold_left]. rewrite IH. destruct (pr i); [apply length_upd|reflexivity]. Qed.
Lemma hits_in l j : hits l j = true <-> exists i, In i l /\ pr i = true /\ ow i = j.
Proof. unfold hits. rewrite existsb_exists. split; intros (i & A & B); exists i; [apply andb_prop in B as (B & C); apply Nat.eqb_eq in C; auto|destruct B as (B & C); split; [exact A|]; rewrite B, C, Nat.eqb_refl; reflexivity]. Qed.
Lemma in_items k n p i : In i (items k n p) <-> ow i = k /\ ix i < n /\ pr i = (p && (S (ix i) =? n)).
Proof.
  unfold items. rewrite in_map_iff. split.
  - intros (x & <- & I). apply in_seq in I. cbn. repeat split; lia.
  - intros (A & B & C). exists (ix i). split; [destruct i; cbn in *; subst; reflexivity|apply in_seq; lia].
Qed.
Lemma in_put b l m i : In i (put b l m) <-> In i l \/ In i m.
Proof. unfold put. destruct b; rewrite in_app_iff; tauto. Qed.

(** ** invariant *)
Record zinv (s : zst) (tr : list zev) : Prop := {
  zi_own : forall i, In i (out s ++ buf s) -> ow i < length (calls s);
  zi_prom : forall i, In i (out s ++ buf s) -> pr i = true -> exists c, nth_error (calls s) (ow i) = Some c /\ sync c = true /\ val c = None /\ S (ix i) = parts c;
  zi_nd : NoDup (map ow (filter pr (out s ++ buf s)));
  zi_succ : forall j c, nth_error (calls s) j = Some c -> val c = Some Success -> 0 < parts c /\ In (EWire (mk_i j (parts c - 1) true)) tr;
  zi_ev : forall j e, In e tr -> match e with ECall k _ | EReturn k _ => k = j | _ => False end -> j < length (calls s);
  zi_ret : forall j c r, nth_error (calls s) j = Some c -> In (EReturn j r) tr -> ret c = Some r /\ sync c = true;
  zi_retv : forall j c r, nth_error (calls s) j = Some c -> ret c = Some r -> val c = Some r \/ parts c = 0 \/ r = Timeout;
  zi_call : forall j c n, nth_error (calls s) j = Some c -> In (ECall j n) tr -> n = parts c \/ parts c = 0 /\ (ret c = Some NotApplicable \/ ret c = Some Success /\ n = 1);
  zi_idle : out s <> [] -> up s = true
}.
Lemma z0_inv : zinv z0 [].
Proof.
  split; cbn; try solve [intros; contradiction]; try (intros j c; destruct j; discriminate); try congruence. constructor.
Qed.

Lemma filter_app_ {A} f (a b : list A) : filter f (a ++ b) = filter f a ++ filter f b.
Proof. apply filter_app. Qed.
Lemma nd_put (b : bool) (k n : nat) (p : bool) (o m : list item) : (forall i, In i (o ++ m) -> ow i < k) -> NoDup (map ow (filter pr (o ++ m))) -> NoDup (map ow (filter pr (o ++ put b (items k n p) m))).
Proof.
  intros L H. assert (Q : filter pr (items k n p) = [] \/ exists x, filter pr (items k n p) = [x] /\ ow x = k).
  { unfold items. destruct n as [|n]; [left; reflexivity|]. rewrite seq_S, map_app, filter_app_. cbn [map Nat.add].
    assert (Z : filter pr (map (fun i => mk_i k i (p && (S i =? S n))) (seq 0 n)) = []).
    { assert (G : forall l, (forall x, In x l -> x < n) -> filter pr (map (fun i => mk_i k i (p && (S i =? S n))) l) = []).
      { induction l as [|x l IH]; intros B; [reflexivity|]. cbn [map filter pr]. pose proof (B x (or_introl eq_refl)). destruct (Nat.eqb_spec (S x) (S n)); [lia|]. rewrite andb_false_r. apply IH. intros y Y. apply B. right. exact Y. }
      apply G. intros x X. apply in_seq in X. lia. }
    rewrite Z. cbn [app filter pr]. rewrite Nat.eqb_refl, andb_true_r. destruct p; [right; eexists; split; reflexivity|left; reflexivity]. }
  rewrite filter_app_, map_app in *. destruct b; unfold put; rewrite filter_app_, map_app.
  - destruct Q as [->|(x & -> & E)]; [exact H|]. cbn [map app]. apply NoDup_Add with (a := ow x) (l := map ow (filter pr o) ++ map ow (filter pr m)); [apply Add_app|]. split; [exact H|]. rewrite E. intros I. rewrite <- map_app, <- filter_app_ in I. apply in_map_iff in I as (y & Y & I). apply filter_In in I as (I & _). pose proof (L y I). lia.
  - destruct Q as [->|(x & -> & E)]; [rewrite app_nil_r; exact H|]. rewrite app_assoc. apply NoDup_Add with (a := ow x) (l := (map ow (filter pr o) ++ map ow (filter pr m)) ++ []); [apply Add_app|]. rewrite app_nil_r. split; [exact H|]. rewrite E. intros I. rewrite <- map_app, <- filter_app_ in I. apply in_map_iff in I as (y & Y & I). apply filter_In in I as (I & _). pose proof (L y I). lia.
Qed.
Lemma nth_app_last {A} (l : list A) x j c : nth_error (l ++ [x]) j = Some c -> nth_error l j = Some c \/ j = length l /\ c = x.
Proof.
  intros H. destruct (Nat.lt_ge_cases j (length l)) as [L|L]; [rewrite nth_error_app1 in H by lia; auto|]. rewrite nth_error_app2 in H by lia. destruct (j - length l) as [|d] eqn:E; [cbn in H; inversion H; right; split; [lia|reflexivity]|destruct d; discriminate].
Qed.
Lemma nth_lt {A} (l : list A) j c : nth_error l j = Some c -> j < length l.
Proof. intros H. apply nth_error_Some. congruence. Qed.

(** adding a call *)
Lemma inv_call s tr q c t : zinv s tr ->
  (q = buf s \/ exists b n p, q = put b (items (length (calls s)) n p) (buf s) /\ parts c = n /\ (p = true -> sync c = true)) ->
  val c = None ->
  (forall e, In e t -> match e with ECall k _ | EReturn k _ => k = length (calls s) | EWire _ => False end) ->
  (forall r, In (EReturn (length (calls s)) r) t -> ret c = Some r /\ sync c = true) ->
  (forall r, ret c = Some r -> parts c = 0) ->
  (forall n, In (ECall (length (calls s)) n) t -> n = parts c \/ parts c = 0 /\ (ret c = Some NotApplicable \/ ret c = Some Success /\ n = 1)) ->
  zinv (mk_z q (out s) (up s) (stopped s) (calls s ++ [c])) (tr ++ t).
Proof.
  intros I Q V E R1 R2 R3. pose proof I as J. destruct J as [Own Prom ND Succ Ev Ret Retv Call Idle]. split; cbn [buf out up stopped calls].
  - intros i H. rewrite app_length. cbn [length]. apply in_app_iff in H. assert (X : In i (out s ++ buf s) \/ ow i = length (calls s)).
    { destruct Q as [->|(b & n & p & -> & _)]; [left; apply in_app_iff; exact H|]. rewrite in_put, in_items in H. rewrite in_app_iff. tauto. }
    destruct X as [X|X]; [pose proof (Own _ X)|]; lia.
  - intros i H P. assert (X : In i (out s ++ buf s) \/ ow i = length (calls s) /\ sync c = true /\ S (ix i) = parts c).
    { destruct Q as [->|(b & n & p & -> & N & S)]; [left; exact H|]. rewrite in_app_iff, in_put, in_items in H. rewrite in_app_iff. destruct H as [H|[(A & B & C)|H]]; [tauto| |tauto]. right. rewrite P in C. symmetry in C. apply andb_prop in C as (C & D). apply Nat.eqb_eq in D. split; [exact A|]. split; [exact (S C)|lia]. }
    destruct X as [X|(X & S & N)].
    + destruct (Prom _ X P) as (c0 & A & B). exists c0. split; [rewrite nth_error_app1 by (eapply nth_lt; eauto); exact A|exact B].
    + exists c. rewrite X, nth_error_app2, Nat.sub_diag by lia. auto.
  - destruct Q as [->|(b & n & p & -> & _)]; [exact ND|]. apply nd_put; assumption.
  - intros j c0 H W. apply nth_app_last in H as [H|(-> & ->)]; [|congruence]. destruct (Succ _ _ H W) as (A & B). split; [exact A|]. apply in_app_iff. left. exact B.
  - intros j e H M. rewrite app_length. cbn [length]. apply in_app_iff in H as [H|H]; [pose proof (Ev j e H M); lia|]. specialize (E e H). destruct e; try contradiction; lia.
  - intros j c0 r H W. apply in_app_iff in W. apply nth_app_last in H as [H|(-> & ->)].
    + destruct W as [W|W]; [eauto|]. specialize (E _ W). cbn in E. apply nth_lt in H. lia.
    + destruct W as [W|W]; [pose proof (Ev _ _ W eq_refl); lia|]. exact (R1 _ W).
  - intros j c0 r H W. apply nth_app_last in H as [H|(-> & ->)]; [eauto|]. right. left. eauto.
  - intros j c0 n H W. apply in_app_iff in W. apply nth_app_last in H as [H|(-> & ->)].
    + destruct W as [W|W]; [eauto|]. specialize (E _ W). cbn in E. apply nth_lt in H. lia.
    + destruct W as [W|W]; [pose proof (Ev _ _ W eq_refl); lia|]. exact (R3 _ W).
  - exact Idle.
Qed.
(** messages leave without completion, move to the writing stage, the link changes *)
Lemma inv_move s tr q o u st : zinv s tr -> (exists d, out s ++ buf s = d ++ o ++ q \/ exists d2, out s ++ buf s = o ++ d ++ d2 /\ q = d2) -> (o <> [] -> u = true) -> zinv (mk_z q o u st (calls s)) tr.
Proof.
  intros [Own Prom ND Succ Ev Ret Retv Call Idle] Q U.
  assert (Sub : forall i, In i (o ++ q) -> In i (out s ++ buf s)).
  { intros i H. destruct Q as (d & [->|(d2 & -> & ->)]); rewrite !in_app_iff in *; tauto. }
  split; cbn [buf out up stopped calls]; auto.
  destruct Q as (d & [E|(d2 & E & ->)]); rewrite E in ND; rewrite !filter_app_, !map_app in *.
  - clear - ND. induction (map ow (filter pr d)) as [|x l IH]; [exact ND|]. apply IH. inversion ND; assumption.
  - clear - ND. induction (map ow (filter pr d)) as [|x l IH]; [exact ND|]. apply IH. cbn [app] in ND. apply NoDup_remove_1 in ND. exact ND.
Qed.
(** completion of some of the messages, which leave *)
Lemma inv_complete s tr r l q o : zinv s tr -> (exists a b, (out s ++ buf s = a ++ l ++ b) /\ o ++ q = a ++ b) -> forall u, (o <> [] -> u = true) -> r <> Timeout ->
  zinv (mk_z q o u (stopped s) (complete r l (calls s))) (tr ++ match r with Success => map EWire l | _ => [] end).
Proof.
  intros [Own Prom ND Succ Ev Ret Retv Call Idle] (a & b & E & E2) u U2 NT.
  assert (Sub : forall i, In i (o ++ q) -> In i (out s ++ buf s)) by (intros i H; rewrite E; rewrite E2 in H; rewrite !in_app_iff in *; tauto).
  assert (Subl : forall i, In i l -> In i (out s ++ buf s)) by (intros i H; rewrite E; rewrite !in_app_iff; tauto).
  assert (New : forall e, In e (match r with Success => map EWire l | _ => [] end) -> exists i, e = EWire i).
  { destruct r; cbn; try tauto. intros e H. apply in_map_iff in H as (i & <- & _). eauto. }
  assert (Disj : forall i, In i (o ++ q) -> pr i = true -> hits l (ow i) = false).
  { intros i H P. destruct (hits l (ow i)) eqn:X; [|reflexivity]. exfalso. apply hits_in in X as (i2 & A & B & C). rewrite E in ND. rewrite E2 in H. clear - ND H P A B C.
    rewrite !filter_app_, !map_app in ND. assert (W2 : In (ow i2) (map ow (filter pr l))) by (apply in_map; apply filter_In; auto). apply in_app_iff in H as [H|H].
    - assert (W : In (ow i) (map ow (filter pr a))) by (apply in_map; apply filter_In; auto). rewrite C in W2. revert W ND. generalize (map ow (filter pr a)). induction l0 as [|x l0 IH]; intros W N; [contradiction|]. cbn [app] in N. apply NoDup_cons_iff in N as (N1 & N2). destruct W as [->|W]; [apply N1; rewrite !in_app_iff; auto|exact (IH W N2)].
    - assert (W : In (ow i) (map ow (filter pr b))) by (apply in_map; apply filter_In; auto). rewrite C in W2. revert ND. generalize (map ow (filter pr a)). induction l0 as [|x l0 IH]; intros N.
      + cbn [app] in N. revert W2 N. generalize (map ow (filter pr l)). induction l0 as [|x l0 IH]; intros W2 N; [contradiction|]. cbn [app] in N. apply NoDup_cons_iff in N as (N1 & N2). destruct W2 as [->|W2]; [apply N1; rewrite !in_app_iff; auto|exact (IH W2 N2)].
      + cbn [app] in N. apply NoDup_cons_iff in N as (N1 & N2). exact (IH N2). }
  assert (Old : forall j c, nth_error (complete r l (calls s)) j = Some c -> exists c0, nth_error (calls s) j = Some c0 /\ (hits l j = false /\ c = c0 \/ hits l j = true /\ c = set_val r c0)).
  { intros j c H. rewrite nth_complete in H. destruct (hits l j); [|eauto]. destruct (nth_error (calls s) j) as [c0|]; [|discriminate]. inversion H. eauto. }
  split; cbn [buf out up stopped calls].
  - intros i H. rewrite length_complete. auto.
  - intros i H P. rewrite nth_complete, (Disj i H P). auto.
  - rewrite E2. rewrite E in ND. rewrite !filter_app_, !map_app in *. clear - ND. induction (map ow (filter pr l)) as [|x l0 IH]; [exact ND|]. apply IH. cbn [app] in ND. apply NoDup_remove_1 in ND. exact ND.
  - intros j c H V. apply Old in H as (c0 & H & [(A & ->)|(A & ->)]).
    + destruct (Succ _ _ H V) as (X & Y). split; [exact X|apply in_app_iff; left; exact Y].
    + cbn [val set_val] in V. injection V as ->. apply hits_in in A as (i & A & B & C). destruct (Prom i (Subl i A) B) as (c1 & D1 & D2 & D3 & D4). rewrite C, H in D1. injection D1 as <-. cbn [parts set_val]. split; [lia|]. apply in_app_iff. right. apply in_map_iff. exists i. split; [|exact A]. destruct i as [i1 i2 i3]; cbn in *; subst. f_equal. f_equal. lia.
  - intros j e H M. rewrite length_complete. apply in_app_iff in H as [H|H]; [exact (Ev j e H M)|]. destruct (New _ H) as (i & ->). contradiction.
  - intros j c r0 H W. apply in_app_iff in W as [W|W]; [|destruct (New _ W); discriminate]. apply Old in H as (c0 & H & [(A & ->)|(A & ->)]); destruct (Ret _ _ _ H W); auto.
  - intros j c r0 H W. apply Old in H as (c0 & H & [(A & ->)|(A & ->)]); [eauto|]. cbn [ret set_val val parts] in *. destruct (Retv _ _ _ H W) as [X|[X|X]]; auto. apply hits_in in A as (i & A & B & C). destruct (Prom i (Subl i A) B) as (c1 & D1 & D2 & D3 & D4). rewrite C, H in D1. injection D1 as <-. congruence.
  - intros j c n H W. apply in_app_iff in W as [W|W]; [|destruct (New _ W); discriminate]. apply Old in H as (c0 & H & [(A & ->)|(A & ->)]); eauto. cbn [parts ret set_val]. eauto.
  - exact U2.
Qed.
(** a call returns *)
Lemma inv_ret s tr j c r : zinv s tr -> nth_error (calls s) j = Some c -> sync c = true -> ret c = None -> (val c = Some r \/ r = Timeout) ->
  zinv (mk_z (buf s) (out s) (up s) (stopped s) (upd (calls s) j (set_ret r))) (tr ++ [EReturn j r]).
Proof.
  intros [Own Prom ND Succ Ev Ret Retv Call Idle] H S N V.
  assert (Old : forall k c1, nth_error (upd (calls s) j (set_ret r)) k = Some c1 -> exists c0, nth_error (calls s) k = Some c0 /\ (k <> j /\ c1 = c0 \/ k = j /\ c0 = c /\ c1 = set_ret r c0)).
  { intros k c1 X. rewrite nth_upd in X. destruct (Nat.eqb_spec k j); [|eauto]. subst. rewrite H in X. inversion X. eauto 6. }
  split; cbn [buf out up stopped calls]; rewrite ?length_upd; auto.
  - intros i X P. rewrite nth_upd. destruct (Prom i X P) as (c0 & A & B). rewrite A. destruct (ow i =? j); eexists; (split; [reflexivity|exact B]).
  - intros k c1 X W. apply Old in X as (c0 & X & [(A & ->)|(A & -> & ->)]); destruct (Succ _ _ X W); (split; [assumption|apply in_app_iff; left; assumption]).
  - intros k e X M. apply in_app_iff in X as [X|[<-|[]]]; [exact (Ev k e X M)|]. subst. eapply nth_lt; eauto.
  - intros k c1 r0 X W. apply Old in X as (c0 & X & [(A & ->)|(A & -> & ->)]); apply in_app_iff in W as [W|[W|[]]]; try (injection W as -> ->); try congruence; eauto.
    destruct (Ret _ _ _ X W) as (P & _). congruence.
  - intros k c1 r0 X W. apply Old in X as (c0 & X & [(A & ->)|(A & -> & ->)]); [eauto|]. cbn [set_ret ret val parts] in *. injection W as ->. tauto.
  - intros k c1 n X W. apply in_app_iff in W as [W|[W|[]]]; [|discriminate]. apply Old in X as (c0 & X & [(A & ->)|(A & -> & ->)]); [eauto|]. cbn [set_ret ret parts]. destruct (Call _ _ _ X W) as [Y|(Y & [Z|(Z & _)])]; [auto| |]; congruence.
Qed.

Lemma ok_inv s s' t : zstep s ZOk = Some (s', t) -> out s <> [] /\ stopped s = false /\ s' = mk_z (buf s) [] (up s) (stopped s) (complete Success (out s) (calls s)) /\ t = map EWire (out s).
Proof.
  cbn [zstep]. intros H. assert (G : forall x y : zst * list zev, Some x = Some y -> x = y) by congruence. destruct (out s) as [|i l]; [discriminate|]. destruct (stopped s); [discriminate|]. apply G in H. split; [discriminate|]. split; [reflexivity|]. split; [exact (eq_sym (f_equal fst H))|exact (eq_sym (f_equal snd H))].
Qed.
Lemma err_inv s s' t : zstep s ZErr = Some (s', t) -> out s <> [] /\ stopped s = false /\ s' = mk_z (buf s) [] (up s) (stopped s) (complete NotApplicable (out s) (calls s)) /\ t = [].
Proof.
  cbn [zstep]. intros H. assert (G : forall x y : zst * list zev, Some x = Some y -> x = y) by congruence. destruct (out s) as [|i l]; [discriminate|]. destruct (stopped s); [discriminate|]. apply G in H. split; [discriminate|]. split; [reflexivity|]. split; [exact (eq_sym (f_equal fst H))|exact (eq_sym (f_equal snd H))].
Qed.
Lemma zstep_inv s tr a s' t : zinv s tr -> zstep s a = Some (s', t) -> zinv s' (tr ++ t).
Proof.
  intros I H. pose proof (zi_idle _ _ I) as Idle. destruct a; match type of H with zstep _ ZOk = _ => idtac | zstep _ ZErr = _ => idtac | _ => cbn [zstep] in H end.
  - destruct (stopped s) eqn:St; [|destruct empty]; inversion H; subst; rewrite <- ?St; apply inv_call; auto; cbn; try (intros e [<-|[<-|[]]]; reflexivity); try (intros e [<-|[]]; reflexivity); try (intros r [X|[X|[]]]; inversion X; auto); try (intros r [X|[]]; inversion X; auto); try (intros n [X|[X|[]]]; inversion X; auto); try (intros n [X|[]]; inversion X; auto); try (intros r X; congruence).
    right. exists prior, 1, true. auto.
  - destruct (stopped s) eqn:St; [|destruct n as [|n]]; inversion H; subst; rewrite <- ?St; apply inv_call; auto; cbn; try (intros e [<-|[<-|[]]]; reflexivity); try (intros e [<-|[]]; reflexivity); try (intros r [X|[X|[]]]; inversion X; auto); try (intros r [X|[]]; inversion X; auto); try (intros m [X|[X|[]]]; inversion X; auto); try (intros m [X|[]]; inversion X; auto); try (intros r X; congruence).
    right. exists prior, (S n), true. auto.
  - inversion H; subst. apply inv_call; auto; cbn; try (intros e [<-|[]]; reflexivity); try (intros r [X|[]]; inversion X; auto); try (intros m [X|[]]; inversion X; auto); try (intros r X; congruence). right. exists prior, n, false. split; [reflexivity|]. split; [reflexivity|discriminate].
  - destruct (out s) eqn:O; [|discriminate]. destruct (firstn n (buf s)) as [|i l] eqn:F; [discriminate|]. destruct (up s && negb (stopped s)) eqn:U; [|discriminate]. inversion H; subst. rewrite app_nil_r. apply inv_move; [exact I| |intros _; apply andb_prop in U as (U & _); exact U]. exists []. left. cbn [app]. rewrite O, app_comm_cons, <- F. symmetry. apply firstn_skipn.
  - apply ok_inv in H as (_ & _ & -> & ->). apply (inv_complete s tr Success (out s) (buf s) []); [exact I| |congruence|discriminate]. exists [], (buf s). auto.
  - apply err_inv in H as (_ & _ & -> & ->). apply (inv_complete s tr NotApplicable (out s) (buf s) []); [exact I| |congruence|discriminate]. exists [], (buf s). auto.
  - inversion H; subst. rewrite app_nil_r. apply inv_move; [exact I| |exact Idle]. exists []. left. reflexivity.
  - destruct (up s && _); [|discriminate]. inversion H; subst. apply (inv_complete s tr NotApplicable (out s) (buf s) []); [exact I| |congruence|discriminate]. exists [], (buf s). auto.
  - destruct (up s || stopped s); [discriminate|]. inversion H; subst. rewrite app_nil_r. apply inv_move; [exact I| |reflexivity]. exists []. left. reflexivity.
  - destruct (up s); [discriminate|]. inversion H; subst. rewrite app_nil_r. apply inv_move; [exact I| |congruence]. exists (out s ++ buf s). left. rewrite !app_nil_r. reflexivity.
  - destruct n as [|n]; [discriminate|]. inversion H; subst. rewrite app_nil_r. apply inv_move; [exact I| |exact Idle]. exists (firstn (S n) (buf s)). right. exists (skipn (S n) (buf s)). rewrite firstn_skipn. auto.
  - inversion H; subst. apply (inv_complete s tr NotApplicable (firstn n (buf s)) (skipn n (buf s)) (out s)); [exact I| |exact Idle|discriminate]. exists (out s), (skipn n (buf s)). rewrite firstn_skipn. auto.
  - destruct (nth_error (calls s) k) as [[[] [] p [] []]|] eqn:E; try discriminate. inversion H; subst. eapply inv_ret; eauto.
  - destruct (nth_error (calls s) k) as [[[] b p [r|] []]|] eqn:E; try discriminate. inversion H; subst. eapply inv_ret; eauto.
Qed.
Lemma zsteps_inv l : forall s tr s' t, zinv s tr -> zsteps s l = Some (s', t) -> zinv s' (tr ++ t).
Proof.
  induction l as [|a l IH]; intros s tr s' t I H; cbn [zsteps] in H; [inversion H; subst; rewrite app_nil_r; exact I|]. destruct (zstep s a) as [[s1 t1]|] eqn:E; [|discriminate]. destruct (zsteps s1 l) as [[s2 t2]|] eqn:E2; [|discriminate]. inversion H; subst. rewrite app_assoc. eapply IH; [|exact E2]. eapply zstep_inv; eauto.
Qed.
Lemma zreach l s tr : zsteps z0 l = Some (s, tr) -> zinv s tr.
Proof. intros H. exact (zsteps_inv l z0 [] s tr z0_inv H). Qed.

(** ** no promise is completed twice *)
Theorem C27_promise_once l s tr : zsteps z0 l = Some (s, tr) ->
  NoDup (map ow (filter pr (out s ++ buf s))) /\
  forall i, In i (out s ++ buf s) -> pr i = true -> exists c, nth_error (calls s) (ow i) = Some c /\ sync c = true /\ val c = None.
Proof.
  intros H. pose proof (zreach l s tr H) as I. split; [exact (zi_nd _ _ I)|]. intros i X P. destruct (zi_prom _ _ I i X P) as (c & A & B & C & _). eauto.
Qed.
Print Assumptions C27_promise_once.
Example C27_promise_once_example : exists s tr, zsteps z0 [ZUp; ZCallN 2 false false; ZCall1 false true false; ZWrite 1; ZSend 1 false] = Some (s, tr) /\
  map ow (filter pr (out s ++ buf s)) = [1; 0].
Proof. do 2 eexists. split; [vm_compute; reflexivity|reflexivity]. Qed.

(** ** a call returns at most once, after it was made *)
Definition returns_once (tr : list zev) : Prop := forall a k r b, tr = a ++ EReturn k r :: b -> (exists n, In (ECall k n) a) /\ forall r', ~ In (EReturn k r') a.
Lemma once_app tr t : returns_once tr -> (forall a k r b, t = a ++ EReturn k r :: b -> (exists n, In (ECall k n) (tr ++ a)) /\ forall r', ~ In (EReturn k r') (tr ++ a)) -> returns_once (tr ++ t).
Proof.
  intros O H a k r b E. apply app_eq_app in E as (l & [(E1 & E2)|(E1 & E2)]).
  - destruct l as [|e l]; [cbn in E2; rewrite app_nil_r in E1; subst a; destruct (H [] k r b (eq_sym E2)) as (A & B); rewrite app_nil_r in *; auto|].
    cbn in E2. injection E2 as <- E2. exact (O a k r l E1).
  - subst a. exact (H l k r b E2).
Qed.
Definition called (s : zst) (tr : list zev) : Prop := forall j, j < length (calls s) -> exists n, In (ECall j n) tr.
Lemma once_step s tr a s' t : zinv s tr -> called s tr -> returns_once tr -> zstep s a = Some (s', t) -> called s' (tr ++ t) /\ returns_once (tr ++ t).
Proof.
  intros I C O H.
  assert (NR : forall r, ~ In (EReturn (length (calls s)) r) tr) by (intros r X; pose proof (zi_ev _ _ I _ _ X eq_refl); lia).
  assert (NEW : forall c n, called (mk_z (buf s) (out s) (up s) (stopped s) (calls s ++ [c])) (tr ++ [ECall (length (calls s)) n])).
  { intros c n j J. cbn [calls] in J. rewrite app_length in J. cbn [length] in J. destruct (Nat.eq_dec j (length (calls s))) as [->|]; [exists n; apply in_or_app; right; left; reflexivity|].
    destruct (C j ltac:(lia)) as (m & M). exists m. apply in_or_app. left. exact M. }
  assert (CALL : forall b' o' c n, called (mk_z b' o' (up s) (stopped s) (calls s ++ [c])) (tr ++ [ECall (length (calls s)) n]) /\ returns_once (tr ++ [ECall (length (calls s)) n])).
  { intros b' o' c n. split; [exact (NEW c n)|]. apply once_app; [exact O|]. intros [|x a0] k r b E; [discriminate E|]. injection E as _ E. destruct a0; discriminate E. }
  assert (BACK : forall b' o' c n r, called (mk_z b' o' (up s) (stopped s) (calls s ++ [c])) (tr ++ [ECall (length (calls s)) n; EReturn (length (calls s)) r]) /\ returns_once (tr ++ [ECall (length (calls s)) n; EReturn (length (calls s)) r])).
  { intros b' o' c n r. split.
    - intros j J. destruct (NEW c n j J) as (m & M). exists m. apply in_app_iff in M. apply in_app_iff. destruct M as [M|[M|[]]]; [left; exact M|right; left; exact M].
    - apply once_app; [exact O|]. intros [|x a0] k r1 b E; [discriminate E|]. injection E as <- E. destruct a0 as [|y a0]; [injection E as <- <- <-|injection E as _ E; destruct a0; discriminate E].
      split; [exists n; apply in_or_app; right; left; reflexivity|]. intros r' X. apply in_app_iff in X as [X|[X|[]]]; [exact (NR r' X)|discriminate X]. }
  assert (SAME : forall s1, length (calls s1) = length (calls s) -> forall t1, (forall k r, ~ In (EReturn k r) t1) -> called s1 (tr ++ t1) /\ returns_once (tr ++ t1)).
  { intros s1 L t1 N. split; [intros j J; rewrite L in J; destruct (C j J) as (m & M); exists m; apply in_or_app; left; exact M|].
    apply once_app; [exact O|]. intros a0 k r b E. exfalso. apply (N k r). rewrite E. apply in_or_app. right. left. reflexivity. }
  assert (RET : forall j c r cs, nth_error (calls s) j = Some c -> ret c = None -> length cs = length (calls s) -> called (mk_z (buf s) (out s) (up s) (stopped s) cs) (tr ++ [EReturn j r]) /\ returns_once (tr ++ [EReturn j r])).
  { intros j c r cs E R L. split; [intros i J; cbn [calls] in J; rewrite L in J; destruct (C i J) as (m & M); exists m; apply in_or_app; left; exact M|].
    apply once_app; [exact O|]. intros [|x a0] k r1 b X; [injection X as <- <- <-|injection X as _ X; destruct a0; discriminate X]. rewrite app_nil_r.
    split; [apply C; apply nth_error_Some; congruence|]. intros r' Y. destruct (zi_ret _ _ I _ _ _ E Y) as (Z & _). congruence. }
  assert (NIL : forall k r, ~ In (EReturn k r) (@nil zev)) by auto.
  destruct a as [e p ti|n p ti|n p|n| | | | | | |n|n|j|j]; match type of H with zstep _ ZOk = _ => idtac | zstep _ ZErr = _ => idtac | _ => cbn [zstep] in H end.
  - destruct (stopped s) eqn:ST; [injection H as <- <-; apply BACK|]. destruct e; injection H as <- <-; [apply BACK|apply CALL].
  - destruct (stopped s) eqn:ST; [injection H as <- <-; apply BACK|]. destruct n; injection H as <- <-; [apply BACK|apply CALL].
  - injection H as <- <-. apply CALL.
  - destruct (out s); [|discriminate H]. destruct (firstn n (buf s)); [discriminate H|]. destruct (up s && negb (stopped s)); [|discriminate H]. injection H as <- <-. apply SAME; [reflexivity|exact NIL].
  - apply ok_inv in H as (_ & _ & -> & ->). apply SAME; [exact (length_complete _ _ _)|]. intros k r X. apply in_map_iff in X as (y & Y & _). discriminate Y.
  - apply err_inv in H as (_ & _ & -> & ->). apply SAME; [exact (length_complete _ _ _)|exact NIL].
  - injection H as <- <-. apply SAME; [reflexivity|exact NIL].
  - destruct (up s && _); [|discriminate H]. injection H as <- <-. apply SAME; [exact (length_complete _ _ _)|exact NIL].
  - destruct (up s || stopped s); [discriminate H|]. injection H as <- <-. apply SAME; [reflexivity|exact NIL].
  - destruct (up s); [discriminate H|]. injection H as <- <-. apply SAME; [reflexivity|exact NIL].
  - destruct n; [discriminate H|]. injection H as <- <-. apply SAME; [reflexivity|exact NIL].
  - injection H as <- <-. apply SAME; [exact (length_complete _ _ _)|exact NIL].
  - destruct (nth_error (calls s) j) as [[[|] [|] pa [v|] [r|]]|] eqn:E; try discriminate H. injection H as <- <-. refine (RET j _ Timeout _ E eq_refl _). apply length_upd.
  - destruct (nth_error (calls s) j) as [[[|] td pa [v|] [r|]]|] eqn:E; try discriminate H. injection H as <- <-. refine (RET j _ v _ E eq_refl _). apply length_upd.
Qed.
Lemma once_steps l : forall s tr s' t, zinv s tr -> called s tr -> returns_once tr -> zsteps s l = Some (s', t) -> returns_once (tr ++ t).
Proof.
  induction l as [|a l IH]; intros s tr s' t I C O H; cbn [zsteps] in H; [injection H as <- <-; rewrite app_nil_r; exact O|].
  destruct (zstep s a) as [[s1 t1]|] eqn:E; [|discriminate H]. destruct (zsteps s1 l) as [[s2 t2]|] eqn:E2; [|discriminate H]. injection H as <- <-.
  destruct (once_step s tr a s1 t1 I C O E) as (C1 & O1). rewrite app_assoc.
  refine (IH s1 (tr ++ t1) s2 t2 _ C1 O1 E2). apply (zsteps_inv [a] s tr s1 t1 I). cbn [zsteps]. rewrite E. rewrite app_nil_r. reflexivity.
Qed.
Theorem C27_returns_once l s tr : zsteps z0 l = Some (s, tr) -> returns_once tr.
Proof.
  intros H. refine (once_steps l z0 [] s tr z0_inv _ _ H); [intros j J; cbn in J; lia|]. intros [|x a] k r b E; discriminate E.
Qed.
Print Assumptions C27_returns_once.
Example C27_returns_once_example : exists s tr, zsteps z0 [ZUp; ZCallN 0 false false; ZCall1 false false true; ZTimeout 1; ZWrite 1; ZOk; ZStop; ZCall1 false false false] = Some (s, tr) /\
  tr = [ECall 0 0; EReturn 0 Success; ECall 1 1; EReturn 1 Timeout; EWire (mk_i 1 0 true); ECall 2 1; EReturn 2 NotApplicable].
Proof. do 2 eexists. split; [vm_compute; reflexivity|reflexivity]. Qed.

(** ** C27, first half: synchronous sends return *)
(** a call that waits can still be answered: its last message is in the library's hands, and the link is not closed *)
Definition C27_returns_statement : Prop := forall l s tr k c, zsteps z0 l = Some (s, tr) -> nth_error (calls s) k = Some c -> sync c = true -> ret c = None -> val c = None ->
  up s = true /\ exists i, In i (out s ++ buf s) /\ ow i = k /\ pr i = true.
(** False: the link closes while the message is in the send buffer, and nothing completes its promise. If the object is
    reused (or the message is discarded by shrinking) the call never returns, whatever happens later. *)
Definition dead (k : nat) (s : zst) : Prop := k < length (calls s) /\ (forall i, In i (out s ++ buf s) -> ow i <> k) /\ exists c, nth_error (calls s) k = Some c /\ timed c = false /\ ret c = None /\ val c = None.
Lemma dead_step k s a s' t : dead k s -> zstep s a = Some (s', t) -> dead k s' /\ forall r, ~ In (EReturn k r) t.
Proof.
  intros (L & N & c & C & T & R & V) H. assert (LC : forall r l, (forall i, In i l -> ow i <> k) -> nth_error (complete r l (calls s)) k = Some c).
  { intros r l X. rewrite nth_complete. destruct (hits l k) eqn:E; [|exact C]. apply hits_in in E as (i & A & _ & B). destruct (X i A B). }
  assert (NK : forall x, nth_error (calls s ++ [x]) k = Some c) by (intros x; rewrite nth_error_app1 by lia; exact C).
  assert (NI : forall b n p q, (forall i, In i q -> ow i <> k) -> forall i, In i (put b (items (length (calls s)) n p) q) -> ow i <> k).
  { intros b n p q X i Y. apply in_put in Y as [Y|Y]; [apply in_items in Y as (Y & _); lia|auto]. }
  assert (NO : forall i, In i (out s) -> ow i <> k) by (intros i X; apply N; apply in_app_iff; auto).
  assert (NB : forall i, In i (buf s) -> ow i <> k) by (intros i X; apply N; apply in_app_iff; auto).
  assert (FS : forall n i, In i (skipn n (buf s)) -> In i (buf s)) by (intros n i X; rewrite <- (firstn_skipn n (buf s)); apply in_app_iff; auto).
  assert (FF : forall n i, In i (firstn n (buf s)) -> In i (buf s)) by (intros n i X; rewrite <- (firstn_skipn n (buf s)); apply in_app_iff; auto).
  unfold dead. destruct a; match type of H with zstep _ ZOk = _ => idtac | zstep _ ZErr = _ => idtac | _ => cbn [zstep] in H end.
  1,2: destruct (stopped s); [|try destruct empty; try (destruct n as [|n])]; inversion H; subst; cbn [buf out calls]; rewrite app_length; cbn [length];
    (split; [|cbn; intros r X; repeat (destruct X as [X|X]; [try discriminate X; injection X as <- _; lia|]); exact X]); (split; [lia|]);
    (split; [intros i X; apply in_app_iff in X as [X|X]; [auto|]; auto; revert X; apply NI; exact NB|exists c; auto]).
  - inversion H; subst. cbn [buf out calls]. rewrite app_length. cbn [length]. split; [|cbn; intros r X; repeat (destruct X as [X|X]; [discriminate X|]); exact X]. split; [lia|]. split; [intros i X; apply in_app_iff in X as [X|X]; [auto|]; revert X; apply NI; exact NB|exists c; auto].
  - destruct (out s); [|discriminate]. destruct (firstn n (buf s)) as [|i0 l0] eqn:F; [discriminate|]. destruct (_ && _); inversion H; subst. cbn [buf out calls]. split; [|intros r []]. split; [exact L|]. split; [|exists c; auto]. rewrite <- F. intros i X. apply in_app_iff in X as [X|X]; eauto.
  - apply ok_inv in H as (_ & _ & -> & ->). cbn [buf out calls app]. rewrite length_complete. split; [|intros r X; apply in_map_iff in X as (? & X & _); discriminate]. split; [exact L|]. split; [auto|]. exists c. split; [apply LC; auto|auto].
  - apply err_inv in H as (_ & _ & -> & ->). cbn [buf out calls app]. rewrite length_complete. split; [|intros r []]. split; [exact L|]. split; [auto|]. exists c. split; [apply LC; auto|auto].
  - inversion H; subst. cbn [buf out calls]. split; [|intros r []]. split; [exact L|]. split; [auto|]. exists c; auto.
  - destruct (up s && _); [|discriminate]. inversion H; subst. cbn [buf out calls app]. rewrite length_complete. split; [|intros r []]. split; [exact L|]. split; [auto|]. exists c. split; [apply LC; auto|auto].
  - destruct (up s || _); [discriminate|]. inversion H; subst. cbn [buf out calls]. split; [|intros r []]. split; [exact L|]. split; [auto|]. exists c; auto.
  - destruct (up s); [discriminate|]. inversion H; subst. cbn [buf out calls app]. split; [|intros r []]. split; [exact L|]. split; [intros i []|]. exists c; auto.
  - destruct n; [discriminate|]. inversion H; subst. cbn [buf out calls]. split; [|intros r []]. split; [exact L|]. split; [|exists c; auto]. intros i X. apply in_app_iff in X as [X|X]; [eauto|exact (NB i (FS (S n) i X))].
  - inversion H; subst. cbn [buf out calls]. rewrite length_complete. split; [|intros r []]. split; [exact L|]. split; [intros i X; apply in_app_iff in X as [X|X]; eauto|]. exists c. split; [apply LC; eauto|auto].
  - destruct (nth_error (calls s) k0) as [[[] [] p [] []]|] eqn:E; try discriminate. inversion H; subst. cbn [buf out calls]. rewrite length_upd. assert (D : k <> k0) by (intros ->; rewrite C in E; injection E as ->; discriminate). split; [|intros r [X|[]]; congruence]. split; [exact L|]. split; [auto|]. exists c. rewrite nth_upd. destruct (Nat.eqb_spec k k0); [congruence|auto].
  - destruct (nth_error (calls s) k0) as [[[] b p [r|] []]|] eqn:E; try discriminate. inversion H; subst. cbn [buf out calls]. rewrite length_upd. assert (D : k <> k0) by (intros ->; rewrite C in E; injection E as ->; discriminate). split; [|intros r0 [X|[]]; congruence]. split; [exact L|]. split; [auto|]. exists c. rewrite nth_upd. destruct (Nat.eqb_spec k k0); [congruence|auto].
Qed.
Lemma dead_steps k l : forall s s' t, dead k s -> zsteps s l = Some (s', t) -> forall r, ~ In (EReturn k r) t.
Proof.
  induction l as [|a l IH]; intros s s' t D H; cbn [zsteps] in H; [inversion H; intros r []|]. destruct (zstep s a) as [[s1 t1]|] eqn:E; [|discriminate]. destruct (zsteps s1 l) as [[s2 t2]|] eqn:E2; [|discriminate]. inversion H; subst. destruct (dead_step _ _ _ _ _ D E) as (D1 & N). intros r X. apply in_app_iff in X as [X|X]; [exact (N r X)|exact (IH _ _ _ D1 E2 r X)].
Qed.
(** the link closes, the object is reused *)
Theorem C27_close_refuted : exists l s tr, l = [ZUp; ZCall1 false false false; ZClose; ZReset; ZUp] /\ zsteps z0 l = Some (s, tr) /\ waiting s 0 /\ forall l2 s2 tr2, zsteps s l2 = Some (s2, tr2) -> forall r, ~ In (EReturn 0 r) tr2.
Proof.
  do 3 eexists. split; [reflexivity|]. split; [vm_compute; reflexivity|]. split; [eexists; split; [reflexivity|split; reflexivity]|].
  intros l2 s2 tr2 H. eapply dead_steps; [|exact H]. split; [cbn; lia|]. split; [intros i []|]. eexists. split; [reflexivity|]. repeat split; reflexivity.
Qed.
Print Assumptions C27_close_refuted.
(** the message is discarded *)
Theorem C27_shrink_refuted : exists l s tr, l = [ZUp; ZCall1 false false false; ZShrink 1] /\ zsteps z0 l = Some (s, tr) /\ waiting s 0 /\ forall l2 s2 tr2, zsteps s l2 = Some (s2, tr2) -> forall r, ~ In (EReturn 0 r) tr2.
Proof.
  do 3 eexists. split; [reflexivity|]. split; [vm_compute; reflexivity|]. split; [eexists; split; [reflexivity|split; reflexivity]|].
  intros l2 s2 tr2 H. eapply dead_steps; [|exact H]. split; [cbn; lia|]. split; [intros i []|]. eexists. split; [reflexivity|]. repeat split; reflexivity.
Qed.
Print Assumptions C27_shrink_refuted.
Theorem C27_returns_statement_refuted : ~ C27_returns_statement.
Proof.
  intros H. destruct C27_shrink_refuted as (l & s & tr & -> & E & W & _). destruct W as (c & A & B & C). vm_compute in E. injection E as <- <-. cbn in A. injection A as <-.
  destruct (H [ZUp; ZCall1 false false false; ZShrink 1] _ _ 0 _ eq_refl eq_refl eq_refl eq_refl eq_refl) as (_ & i & [] & _).
Qed.
Print Assumptions C27_returns_statement_refuted.

(** What holds: as long as no message is discarded (shrinking, reusing the object), the message of a waiting call stays in the
    library's hands; and once it is being written every outcome of the write, and closing, answers the call. *)
Definition keeps (a : zaction) : bool := match a with ZShrink _ | ZReset => false | _ => true end.
Definition held (s : zst) : Prop := forall k c, nth_error (calls s) k = Some c -> sync c = true -> ret c = None -> val c = None -> exists i, In i (out s ++ buf s) /\ ow i = k /\ pr i = true.
Lemma held_call s q c : held s -> (forall i, In i (buf s) -> In i q) -> (sync c = true -> ret c = None -> exists i, In i q /\ ow i = length (calls s) /\ pr i = true) -> held (mk_z q (out s) (up s) (stopped s) (calls s ++ [c])).
Proof.
  intros H S Q k c0 X A B C. cbn [buf out calls] in *. apply nth_app_last in X as [X|(-> & ->)].
  - destruct (H _ _ X A B C) as (i & I & J). exists i. split; [|exact J]. rewrite in_app_iff in *. destruct I; auto.
  - destruct (Q A B) as (i & I & J). exists i. split; [apply in_app_iff; auto|exact J].
Qed.
Lemma held_complete s r l q o u : held s -> (forall i, In i (out s ++ buf s) -> In i l \/ In i (o ++ q)) -> held (mk_z q o u (stopped s) (complete r l (calls s))).
Proof.
  intros H S k c X A B C. cbn [buf out calls] in *. rewrite nth_complete in X. destruct (hits l k) eqn:E; [destruct (nth_error (calls s) k); inversion X; subst; discriminate|].
  destruct (H _ _ X A B C) as (i & I & J & K). exists i. split; [|auto]. destruct (S i I) as [Y|Y]; [|exact Y]. exfalso. assert (Z : hits l k = true) by (apply hits_in; eauto). congruence.
Qed.
Lemma last_item k n : exists i, In i (items k (S n) true) /\ ow i = k /\ pr i = true.
Proof. exists (mk_i k n true). rewrite in_items. cbn. rewrite Nat.eqb_refl. repeat split. lia. Qed.
Lemma held_step s a s' t : held s -> keeps a = true -> zstep s a = Some (s', t) -> held s'.
Proof.
  intros I K H. destruct a; try discriminate K; match type of H with zstep _ ZOk = _ => idtac | zstep _ ZErr = _ => idtac | _ => cbn [zstep] in H end.
  - destruct (stopped s) eqn:St; [|destruct empty]; inversion H; subst; rewrite <- ?St; apply held_call; auto; cbn; try discriminate; [intros i X; apply in_put; auto|]. intros _ _. destruct (last_item (length (calls s)) 0) as (i & X & Y). exists i. split; [apply in_put; left; exact X|exact Y].
  - destruct (stopped s) eqn:St; [|destruct n as [|n]]; inversion H; subst; rewrite <- ?St; apply held_call; auto; cbn [ret sync]; try discriminate; [intros i X; apply in_put; auto|]. intros _ _. destruct (last_item (length (calls s)) n) as (i & X & Y). exists i. split; [apply in_put; left; exact X|exact Y].
  - inversion H; subst. apply held_call; auto; cbn; try discriminate. intros i X; apply in_put; auto.
  - destruct (out s) eqn:O; [|discriminate]. destruct (firstn n (buf s)) as [|i l] eqn:F; [discriminate|]. destruct (_ && _); inversion H; subst. intros k c X A B C. destruct (I k c X A B C) as (j & J & JJ). exists j. split; [|exact JJ]. cbn [out buf]. rewrite <- F, firstn_skipn. rewrite O in J. exact J.
  - apply ok_inv in H as (_ & _ & -> & ->). apply held_complete; [exact I|]. intros j J. apply in_app_iff in J. exact J.
  - apply err_inv in H as (_ & _ & -> & ->). apply held_complete; [exact I|]. intros j J. apply in_app_iff in J. exact J.
  - inversion H; subst. exact I.
  - destruct (up s && _); inversion H; subst. apply held_complete; [exact I|]. intros j J. apply in_app_iff in J. exact J.
  - destruct (up s || _); inversion H; subst. exact I.
  - inversion H; subst. apply held_complete; [exact I|]. intros j J. rewrite <- (firstn_skipn n (buf s)) in J. rewrite !in_app_iff in *. tauto.
  - destruct (nth_error (calls s) k) as [[[] [] p [] []]|] eqn:E; inversion H; subst. intros j c X A B C. cbn [calls out buf] in *. rewrite nth_upd in X. destruct (j =? k); [destruct (nth_error (calls s) j); inversion X; subst; discriminate|eauto].
  - destruct (nth_error (calls s) k) as [[[] b p [r|] []]|] eqn:E; inversion H; subst. intros j c X A B C. cbn [calls out buf] in *. rewrite nth_upd in X. destruct (j =? k); [destruct (nth_error (calls s) j); inversion X; subst; discriminate|eauto].
Qed.
Lemma held_steps l : forall s s' t, held s -> forallb keeps l = true -> zsteps s l = Some (s', t) -> held s'.
Proof.
  induction l as [|a l IH]; intros s s' t I K H; cbn [zsteps forallb] in *; [inversion H; subst; exact I|]. apply andb_prop in K as (K1 & K2). destruct (zstep s a) as [[s1 t1]|] eqn:E; [|discriminate]. destruct (zsteps s1 l) as [[s2 t2]|] eqn:E2; [|discriminate]. inversion H; subst. eapply IH; [eapply held_step; eauto|exact K2|exact E2].
Qed.
Lemma held0 : held z0.
Proof. intros k c H. destruct k; discriminate. Qed.
Lemma complete_answers r l cs k c : hits l k = true -> nth_error cs k = Some c -> nth_error (complete r l cs) k = Some (set_val r c).
Proof. intros H C. rewrite nth_complete, H, C. reflexivity. Qed.
Theorem C27_returns_partial l s tr k c : forallb keeps l = true -> zsteps z0 l = Some (s, tr) -> nth_error (calls s) k = Some c -> sync c = true -> ret c = None -> val c = None ->
  (exists i, In i (out s ++ buf s) /\ ow i = k /\ pr i = true) /\
  (* while the link is up: completing the writes answers the call *)
  (up s = true -> stopped s = false -> exists l2 s2 t2, forallb (fun a => match a with ZOk | ZWrite _ | ZReturn _ => true | _ => false end) l2 = true /\ zsteps s l2 = Some (s2, t2) /\ In (EReturn k Success) t2).
Proof.
  intros K H C S R V. pose proof (held_steps l z0 s tr held0 K H k c C S R V) as Hd. split; [exact Hd|]. intros U St. destruct Hd as (i & I & O & P).
  (* finish the current write *)
  assert (G : forall s, out s = [] -> up s = true -> stopped s = false -> nth_error (calls s) k = Some c -> In i (buf s) -> exists l2 s2 t2, forallb (fun a => match a with ZOk | ZWrite _ | ZReturn _ => true | _ => false end) l2 = true /\ zsteps s l2 = Some (s2, t2) /\ In (EReturn k Success) t2).
  { clear - O P S R V. intros s E U St C I. exists [ZWrite (length (buf s)); ZOk; ZReturn k]. destruct (buf s) as [|b bs] eqn:B; [contradiction|]. cbn [zsteps zstep]. rewrite E, B, firstn_all, skipn_all, U, St. cbn [andb negb out stopped calls]. assert (Z : hits (b :: bs) k = true) by (apply hits_in; eauto).
    rewrite (complete_answers _ _ _ _ _ Z C). destruct c as [cs ct cp cv cr]. cbn in S, R, V |- *. subst. do 2 eexists. split; [reflexivity|]. split; [reflexivity|]. right. apply in_or_app. right. left. reflexivity. }
  destruct (out s) as [|o os] eqn:E.
  - apply (G s); auto.
  - apply in_app_iff in I. destruct (hits (out s) k) eqn:Z.
    + exists [ZOk; ZReturn k]. cbn [zsteps zstep]. rewrite E, St. rewrite <- E. cbn [calls]. rewrite (complete_answers _ _ _ _ _ Z C). destruct c as [cs ct cp cv cr]. cbn in S, R, V |- *. subst. do 2 eexists. split; [reflexivity|]. split; [reflexivity|]. apply in_or_app. right. left. reflexivity.
    + destruct I as [I|I]; [exfalso; assert (hits (out s) k = true) by (apply hits_in; rewrite E; eauto); congruence|].
      destruct (G (mk_z (buf s) [] (up s) false (complete Success (out s) (calls s)))) as (l2 & s2 & t2 & A & B & D); auto; [cbn; rewrite nth_complete, Z; exact C|].
      exists (ZOk :: l2). cbn [zsteps zstep forallb]. rewrite E, St, <- E. rewrite B. do 2 eexists. split; [exact A|]. split; [reflexivity|]. apply in_or_app. right. exact D.
Qed.
Print Assumptions C27_returns_partial.
Example C27_returns_example : exists s tr, let l := [ZUp; ZSend 1 false; ZWrite 1; ZCallN 2 false false] in forallb keeps l = true /\ zsteps z0 l = Some (s, tr) /\ waiting s 1 /\ length (out s) = 1 /\ length (buf s) = 2.
Proof. do 2 eexists. split; [reflexivity|]. split; [vm_compute; reflexivity|]. split; [eexists; split; [reflexivity|split; reflexivity]|]. split; reflexivity. Qed.
(** whatever becomes of a write, the calls whose messages were being written are answered *)
Theorem C27_taken_answered l s tr a s' t i : zsteps z0 l = Some (s, tr) -> In i (out s) -> pr i = true -> (a = ZOk \/ a = ZErr \/ a = ZClose) -> zstep s a = Some (s', t) ->
  exists c r, nth_error (calls s') (ow i) = Some c /\ val c = Some r /\ (r = Success <-> a = ZOk).
Proof.
  intros H I P A E. destruct (zi_prom _ _ (zreach _ _ _ H) i ltac:(apply in_app_iff; auto) P) as (c & C & _). assert (Z : hits (out s) (ow i) = true) by (apply hits_in; eauto).
  destruct A as [ -> | [ -> | -> ] ]; [apply ok_inv in E as (_ & _ & -> & _)|apply err_inv in E as (_ & _ & -> & _)|cbn [zstep] in E].
  1,2: cbn [calls]; rewrite (complete_answers _ _ _ _ _ Z C); do 2 eexists; (split; [reflexivity|]); (split; [reflexivity|]); split; intros; congruence.
  destruct (up s && _); inversion E; subst. cbn [calls]. rewrite (complete_answers _ _ _ _ _ Z C). do 2 eexists. split; [reflexivity|]. split; [reflexivity|]. split; intros; congruence.
Qed.
Print Assumptions C27_taken_answered.
Example C27_taken_example : exists s tr s' t, zsteps z0 [ZUp; ZCall1 false false false; ZWrite 1] = Some (s, tr) /\ In (mk_i 0 0 true) (out s) /\ zstep s ZErr = Some (s', t).
Proof. do 4 eexists. split; [vm_compute; reflexivity|]. split; [left; reflexivity|vm_compute; reflexivity]. Qed.

(** ** C27, second half: SUCCESS means handed over *)
Definition C27_success_statement : Prop := forall l s tr, zsteps z0 l = Some (s, tr) -> truthful tr.
(** False twice: a message that could not be packed is reported as sent; *)
Theorem C27_empty_refuted : exists s tr, zsteps z0 [ZUp; ZCall1 true false false] = Some (s, tr) /\ In (ECall 0 1) tr /\ In (EReturn 0 Success) tr /\ wired tr = [].
Proof. do 2 eexists. split; [vm_compute; reflexivity|]. split; [left; reflexivity|]. split; [right; left; reflexivity|reflexivity]. Qed.
Print Assumptions C27_empty_refuted.
(** a container whose first message was lost with one link is reported as sent after the second one was sent on the next link. *)
Theorem C27_container_refuted : exists s tr, zsteps z0 [ZUp; ZCallN 2 false false; ZWrite 1; ZErr; ZClose; ZUp; ZWrite 1; ZOk; ZReturn 0] = Some (s, tr) /\
  tr = [ECall 0 2; EWire (mk_i 0 1 true); EReturn 0 Success].
Proof. do 2 eexists. split; [vm_compute; reflexivity|reflexivity]. Qed.
Print Assumptions C27_container_refuted.
Theorem C27_success_statement_refuted : ~ C27_success_statement.
Proof.
  intros H. destruct C27_container_refuted as (s & tr & E & ->). destruct (H _ _ _ E 0 2 0) as (p & X); [left; reflexivity|right; right; left; reflexivity|lia|]. cbn in X. repeat (destruct X as [X|X]; [discriminate X|]). exact X.
Qed.
Print Assumptions C27_success_statement_refuted.
(** What holds: without unpackable messages, the last message of the call was handed over; *)
Definition packable (a : zaction) : bool := match a with ZCall1 true _ _ => false | _ => true end.
Lemma packable_ret l : forall s tr s' t, zinv s tr -> (forall j c, nth_error (calls s) j = Some c -> ret c = Some Success -> parts c = 0 -> ~ In (ECall j 1) tr) -> forallb packable l = true -> zsteps s l = Some (s', t) ->
  forall j c, nth_error (calls s') j = Some c -> ret c = Some Success -> parts c = 0 -> ~ In (ECall j 1) (tr ++ t).
Proof.
  induction l as [|a l IH]; intros s tr s' t I Q K H; cbn [zsteps forallb] in *; [inversion H; subst; rewrite app_nil_r; exact Q|]. apply andb_prop in K as (K1 & K2). destruct (zstep s a) as [[s1 t1]|] eqn:E; [|discriminate]. destruct (zsteps s1 l) as [[s2 t2]|] eqn:E2; [|discriminate]. inversion H; subst. rewrite app_assoc.
  refine (IH s1 (tr ++ t1) s' t2 (zstep_inv _ _ _ _ _ I E) _ K2 E2). clear IH K2 E2 H l t2 s'.
  intros j c C R P X. pose proof (zi_ev _ _ I) as Ev. pose proof (zi_retv _ _ I) as Retv. apply in_app_iff in X. destruct a; match type of E with zstep _ ZOk = _ => idtac | zstep _ ZErr = _ => idtac | _ => cbn [zstep] in E end.
  - destruct empty; [discriminate K1|]. destruct (stopped s); inversion E; subst; cbn [calls] in C; apply nth_app_last in C as [C|(-> & ->)]; try discriminate; (destruct X as [X|X]; [exact (Q _ _ C R P X)|]); cbn in X; repeat (destruct X as [X|X]; [try discriminate X; injection X as X; apply nth_lt in C; lia|]); exact X.
  - destruct (stopped s); [|destruct n as [|n]]; inversion E; subst; cbn [calls] in C; apply nth_app_last in C as [C|(-> & ->)]; try discriminate; (destruct X as [X|X]; [try exact (Q _ _ C R P X); exact (Nat.lt_irrefl _ (Ev _ _ X eq_refl))|]); cbn in X; repeat (destruct X as [X|X]; [try discriminate X; try (injection X as X; apply nth_lt in C; lia)|]); exact X.
  - inversion E; subst; cbn [calls] in C; apply nth_app_last in C as [C|(-> & ->)]; try discriminate. destruct X as [X|[X|[]]]; [exact (Q _ _ C R P X)|]. injection X as X _. apply nth_lt in C. lia.
  - destruct (out s); [|discriminate]. destruct (firstn n (buf s)); [discriminate|]. destruct (_ && _); inversion E; subst. destruct X as [X|[]]. exact (Q _ _ C R P X).
  - apply ok_inv in E as (_ & _ & -> & ->). destruct X as [X|X]; [|apply in_map_iff in X as (? & X & _); discriminate]. cbn [calls] in C. rewrite nth_complete in C. destruct (hits _ j); [|exact (Q _ _ C R P X)]. destruct (nth_error (calls s) j) as [c0|] eqn:C0; inversion C; subst. exact (Q _ _ C0 R P X).
  - apply err_inv in E as (_ & _ & -> & ->). destruct X as [X|[]]. cbn [calls] in C. rewrite nth_complete in C. destruct (hits _ j); [|exact (Q _ _ C R P X)]. destruct (nth_error (calls s) j) as [c0|] eqn:C0; inversion C; subst. exact (Q _ _ C0 R P X).
  - inversion E; subst. destruct X as [X|[]]. exact (Q _ _ C R P X).
  - destruct (up s && _); inversion E; subst. destruct X as [X|[]]. cbn [calls] in C. rewrite nth_complete in C. destruct (hits _ j); [|exact (Q _ _ C R P X)]. destruct (nth_error (calls s) j) as [c0|] eqn:C0; inversion C; subst. exact (Q _ _ C0 R P X).
  - destruct (up s || _); inversion E; subst. destruct X as [X|[]]. exact (Q _ _ C R P X).
  - destruct (up s); inversion E; subst. destruct X as [X|[]]. exact (Q _ _ C R P X).
  - destruct n; inversion E; subst. destruct X as [X|[]]. exact (Q _ _ C R P X).
  - inversion E; subst. destruct X as [X|[]]. cbn [calls] in C. rewrite nth_complete in C. destruct (hits _ j); [|exact (Q _ _ C R P X)]. destruct (nth_error (calls s) j) as [c0|] eqn:C0; inversion C; subst. exact (Q _ _ C0 R P X).
  - destruct (nth_error (calls s) k) as [[[] [] p [] []]|] eqn:F; inversion E; subst. destruct X as [X|[X|[]]]; [|discriminate]. cbn [calls] in C. rewrite nth_upd in C. destruct (j =? k); [destruct (nth_error (calls s) j); inversion C; subst; discriminate|exact (Q _ _ C R P X)].
  - destruct (nth_error (calls s) k) as [[[] b p [r|] []]|] eqn:F; inversion E; subst. destruct X as [X|[X|[]]]; [|discriminate]. cbn [calls] in C. rewrite nth_upd in C. destruct (Nat.eqb_spec j k); [|exact (Q _ _ C R P X)]. subst. rewrite F in C. inversion C; subst. cbn [set_ret parts ret] in *. subst. destruct (zi_succ _ _ I _ _ F) as (Z & _); [cbn; congruence|cbn in Z; lia].
Qed.
Theorem C27_last_handed_partial l s tr k n : forallb packable l = true -> zsteps z0 l = Some (s, tr) -> In (ECall k n) tr -> In (EReturn k Success) tr -> 0 < n -> handed tr k (n - 1).
Proof.
  intros K H A B N. pose proof (zreach _ _ _ H) as I. pose proof (zi_ev _ _ I k _ A eq_refl) as L. destruct (nth_error (calls s) k) as [c|] eqn:C; [|apply nth_error_None in C; lia].
  destruct (zi_ret _ _ I _ _ _ C B) as (R & _). pose proof (packable_ret l z0 [] s tr z0_inv ltac:(intros [|j] c0 X; discriminate) K H k c C R) as Q. cbn [app] in Q.
  destruct (zi_call _ _ I _ _ _ C A) as [E|(P & [E|(_ & ->)])]; [|congruence|destruct (Q P A)].
  destruct (zi_retv _ _ I _ _ _ C R) as [V|[V|V]]; [|lia|discriminate]. destruct (zi_succ _ _ I _ _ C V) as (_ & W). exists true. rewrite E. exact W.
Qed.
Print Assumptions C27_last_handed_partial.
(** and if no message is lost or discarded, all of them. *)
Definition lossless (a : zaction) : bool := match a with ZErr | ZStop | ZReset | ZShrink _ | ZPop _ => false | _ => true end.
Definition mine (k : nat) (i : item) : bool := ow i =? k.
Definition seqd (s : zst) (w : list item) : Prop := stopped s = false /\ forall k c, nth_error (calls s) k = Some c -> filter (mine k) (w ++ out s ++ buf s) = items k (parts c) (sync c).
Lemma mine_items k j n p : filter (mine k) (items j n p) = if j =? k then items j n p else [].
Proof.
  unfold items. generalize (seq 0 n) as l. intros l. induction l as [|x l IH]; cbn [map filter]; [destruct (j =? k); reflexivity|]. unfold mine at 1. cbn [ow]. destruct (j =? k); rewrite IH; reflexivity.
Qed.
Lemma mine_none k l : (forall i, In i l -> ow i <> k) -> filter (mine k) l = [].
Proof. induction l as [|x l IH]; intros H; [reflexivity|]. cbn [filter]. unfold mine at 1. pose proof (H x (or_introl eq_refl)). destruct (Nat.eqb_spec (ow x) k); [lia|]. apply IH. intros i X. apply H. right. exact X. Qed.
Lemma wired_app a b : wired (a ++ b) = wired a ++ wired b.
Proof. apply flat_map_app. Qed.
Lemma wired_map l : wired (map EWire l) = l.
Proof. induction l as [|x l IH]; [reflexivity|]. cbn. f_equal. exact IH. Qed.
Record linv (s : zst) (w : list item) : Prop := { li_st : stopped s = false; li_seq : forall k c, nth_error (calls s) k = Some c -> filter (mine k) (w ++ out s ++ buf s) = items k (parts c) (sync c);
  li_own : forall i, In i (w ++ out s ++ buf s) -> ow i < length (calls s) }.
Lemma linv_call s w q c : linv s w -> (q = buf s /\ parts c = 0 \/ exists b, q = put b (items (length (calls s)) (parts c) (sync c)) (buf s)) -> linv (mk_z q (out s) (up s) (stopped s) (calls s ++ [c])) w.
Proof.
  intros [St Sq Own] Q. split; cbn [stopped calls out buf]; [exact St| |].
  - intros k c0 H. apply nth_app_last in H as [H|(-> & ->)].
    + rewrite <- (Sq _ _ H). pose proof (nth_lt _ _ _ H). destruct Q as [(-> & _)|(b & ->)]; [reflexivity|]. rewrite !filter_app. f_equal. f_equal. unfold put. destruct b; rewrite filter_app, mine_items; destruct (Nat.eqb_spec (length (calls s)) k); try lia; rewrite ?app_nil_r; reflexivity.
    + assert (Z : filter (mine (length (calls s))) (w ++ out s ++ buf s) = []) by (apply mine_none; intros i X; pose proof (Own i X); lia). destruct Q as [(-> & ->)|(b & ->)]; [exact Z|].
      rewrite !filter_app in Z. apply app_eq_nil in Z as (Z1 & Z2). apply app_eq_nil in Z2 as (Z2 & Z3). rewrite !filter_app, Z1, Z2. cbn [app]. unfold put. destruct b; rewrite filter_app, Z3, mine_items, Nat.eqb_refl, ?app_nil_r; reflexivity.
  - intros i H. rewrite app_length. cbn [length]. rewrite !in_app_iff in H. destruct Q as [(-> & _)|(b & ->)]; [assert (X : ow i < length (calls s)) by (apply Own; rewrite !in_app_iff; exact H); lia|]. rewrite in_put in H. destruct H as [H|[H|[H|H]]]; [| |apply in_items in H as (H & _); lia|]; assert (X : ow i < length (calls s)) by (apply Own; rewrite !in_app_iff; tauto); lia.
Qed.
Lemma linv_same s w q o u cs w2 : linv s w -> w2 ++ o ++ q = w ++ out s ++ buf s -> length cs = length (calls s) -> (forall k c, nth_error cs k = Some c -> exists c0, nth_error (calls s) k = Some c0 /\ parts c = parts c0 /\ sync c = sync c0) -> linv (mk_z q o u (stopped s) cs) w2.
Proof.
  intros [St Sq Own] E L C. split; cbn [stopped calls out buf]; rewrite ?E, ?L; [exact St| |exact Own]. intros k c H. destruct (C k c H) as (c0 & A & -> & ->). exact (Sq _ _ A).
Qed.
Lemma same_complete r l cs k c : nth_error (complete r l cs) k = Some c -> exists c0, nth_error cs k = Some c0 /\ parts c = parts c0 /\ sync c = sync c0.
Proof. rewrite nth_complete. destruct (hits l k); [|eauto]. destruct (nth_error cs k); [|discriminate]. intros H. inversion H; subst. eauto. Qed.
Lemma same_upd j r cs k c : nth_error (upd cs j (set_ret r)) k = Some c -> exists c0, nth_error cs k = Some c0 /\ parts c = parts c0 /\ sync c = sync c0.
Proof. rewrite nth_upd. destruct (k =? j); [|eauto]. destruct (nth_error cs k); [|discriminate]. intros H. inversion H; subst. eauto. Qed.
Lemma linv_step s w a s' t : linv s w -> lossless a = true -> zstep s a = Some (s', t) -> linv s' (w ++ wired t).
Proof.
  intros I K H. pose proof (li_st _ _ I) as St. destruct a; try discriminate K; match type of H with zstep _ ZOk = _ => idtac | _ => cbn [zstep] in H; rewrite ?St in H end.
  - destruct empty; inversion H; subst; cbn; rewrite app_nil_r; rewrite <- St; apply linv_call; auto. right. exists prior. reflexivity.
  - destruct n as [|n]; inversion H; subst; cbn [wired flat_map app]; rewrite app_nil_r; rewrite <- St; apply linv_call; auto. right. exists prior. reflexivity.
  - inversion H; subst; cbn; rewrite app_nil_r; rewrite <- St; apply linv_call; auto. right. exists prior. reflexivity.
  - destruct (out s) eqn:O; [|discriminate]. destruct (firstn n (buf s)) as [|i l] eqn:F; [discriminate|]. destruct (_ && _); inversion H; subst. cbn [wired flat_map]. rewrite app_nil_r, <- St. apply (linv_same s w); eauto. rewrite O, <- F, firstn_skipn. reflexivity.
  - apply ok_inv in H as (_ & _ & -> & ->). rewrite wired_map. apply (linv_same s w); [exact I|cbn [app]; rewrite <- app_assoc; reflexivity|apply length_complete|apply same_complete].
  - destruct (up s && _) eqn:U; inversion H; subst. cbn [wired flat_map]. rewrite app_nil_r, <- St. apply andb_prop in U as (_ & U). destruct (out s) eqn:O; [|discriminate]. apply (linv_same s w); [exact I|rewrite O; reflexivity|apply length_complete|apply same_complete].
  - destruct (up s || _); inversion H; subst. cbn [wired flat_map]. rewrite app_nil_r, <- St. apply (linv_same s w); eauto.
  - destruct (nth_error (calls s) k) as [[[] [] p [] []]|]; inversion H; subst. cbn [wired flat_map app]. rewrite app_nil_r, <- St. apply (linv_same s w); [exact I|reflexivity|apply length_upd|apply same_upd].
  - destruct (nth_error (calls s) k) as [[[] b p [r|] []]|]; inversion H; subst. cbn [wired flat_map app]. rewrite app_nil_r, <- St. apply (linv_same s w); [exact I|reflexivity|apply length_upd|apply same_upd].
Qed.
Lemma linv_steps l : forall s w s' t, linv s w -> forallb lossless l = true -> zsteps s l = Some (s', t) -> linv s' (w ++ wired t).
Proof.
  induction l as [|a l IH]; intros s w s' t I K H; cbn [zsteps forallb] in *; [inversion H; subst; cbn; rewrite app_nil_r; exact I|]. apply andb_prop in K as (K1 & K2). destruct (zstep s a) as [[s1 t1]|] eqn:E; [|discriminate]. destruct (zsteps s1 l) as [[s2 t2]|] eqn:E2; [|discriminate]. inversion H; subst. rewrite wired_app, app_assoc. eapply IH; [eapply linv_step; eauto|exact K2|exact E2].
Qed.
Lemma in_wired i tr : In i (wired tr) <-> In (EWire i) tr.
Proof. unfold wired. rewrite in_flat_map. split; [intros (e & A & B); destruct e; cbn in B; try contradiction; destruct B as [<-|[]]; exact A|intros H; exists (EWire i); split; [exact H|left; reflexivity]]. Qed.
Theorem C27_all_handed_partial l s tr : forallb packable l = true -> forallb lossless l = true -> zsteps z0 l = Some (s, tr) -> truthful tr.
Proof.
  intros K K2 H k n i A B N. destruct (C27_last_handed_partial l s tr k n K H A B ltac:(lia)) as (p & W).
  assert (L0 : linv z0 []) by (split; cbn; [reflexivity|intros [|j] c X; discriminate|contradiction]). pose proof (linv_steps l z0 [] s tr L0 K2 H) as L. cbn [app] in L.
  pose proof (zreach _ _ _ H) as I. pose proof (zi_ev _ _ I k _ A eq_refl) as Lt. destruct (nth_error (calls s) k) as [c|] eqn:C; [|apply nth_error_None in C; lia].
  pose proof (li_seq _ _ L k c C) as Q. apply in_wired in W. assert (M : In (mk_i k (n - 1) p) (items k (parts c) (sync c))) by (rewrite <- Q; apply filter_In; split; [apply in_app_iff; left; exact W|unfold mine; cbn; apply Nat.eqb_refl]).
  assert (P : n = parts c). { apply in_items in M as (_ & M & _). cbn in M. destruct (zi_call _ _ I _ _ _ C A) as [E|(P & _)]; lia. }
  (* nothing of the call is left behind its last message *)
  assert (R : filter (mine k) (out s ++ buf s) = []).
  { rewrite filter_app in Q. destruct (filter (mine k) (out s ++ buf s)) as [|x r] eqn:F using rev_ind; [reflexivity|]. exfalso. clear IHr. unfold items in Q. rewrite <- P in Q. destruct n as [|n]; [lia|]. rewrite seq_S, map_app, app_assoc in Q. cbn [map Nat.add] in Q. apply app_inj_tail in Q as (Q & _). replace (S n - 1) with n in * by lia.
    assert (Y : In (mk_i k n p) (filter (mine k) (wired tr))) by (apply filter_In; split; [exact W|unfold mine; cbn; apply Nat.eqb_refl]). assert (Y2 : In (mk_i k n p) (map (fun i => mk_i k i (sync c && (S i =? S n))) (seq 0 n))) by (rewrite <- Q; apply in_app_iff; left; exact Y). apply in_map_iff in Y2 as (j & E & J). apply in_seq in J. inversion E. lia. }
  rewrite filter_app, R, app_nil_r in Q. assert (M2 : In (mk_i k i (sync c && (S i =? parts c))) (filter (mine k) (wired tr))) by (rewrite Q; apply in_items; cbn; repeat split; lia). apply filter_In in M2 as (M2 & _). apply in_wired in M2. eexists. exact M2.
Qed.
Print Assumptions C27_all_handed_partial.
Example C27_all_handed_example : exists s tr, let l := [ZUp; ZCallN 3 false false; ZWrite 1; ZCall1 false true false; ZOk; ZWrite 2; ZOk; ZReturn 1; ZWrite 1; ZOk; ZReturn 0] in
  forallb packable l = true /\ forallb lossless l = true /\ zsteps z0 l = Some (s, tr) /\ In (EReturn 0 Success) tr /\ map ow (wired tr) = [0; 1; 0; 0].
Proof. do 2 eexists. split; [reflexivity|]. split; [reflexivity|]. split; [vm_compute; reflexivity|]. split; [cbn; tauto|reflexivity]. Qed.
