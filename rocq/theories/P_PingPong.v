(** C145: the ping-pong test ends, and not before everything came back. *)
From Coq Require Import List NArith Arith Lia Bool.
From Verif Require Import M_PingPong S_PingPong.
Import ListNotations.

(** ** lists of links *)
Lemma set_at_nth {A} (l : list A) : forall i j x y, nth_error l i = Some y -> nth_error (set_at i x l) j = if j =? i then Some x else nth_error l j.
Proof.
  induction l as [|a l IH]; intros [|i] [|j] x y H; try discriminate H; cbn [set_at nth_error Nat.eqb]; try reflexivity. exact (IH i j x y H).
Qed.
Lemma set_at_len {A} (l : list A) : forall i x, length (set_at i x l) = length l.
Proof. induction l as [|a l IH]; intros [|i] x; cbn [set_at length]; try reflexivity. rewrite IH. reflexivity. Qed.
Definition busy (k : plink) : bool := negb (k_total k =? 0).
Definition busies (ls : list plink) : nat := length (filter busy ls).
Definition b2n (b : bool) : nat := if b then 1 else 0.
Lemma busies_set ls : forall i k x, nth_error ls i = Some k -> busies (set_at i x ls) + b2n (busy k) = busies ls + b2n (busy x).
Proof.
  unfold busies. induction ls as [|a ls IH]; intros [|i] k x H; try discriminate H; cbn [set_at filter].
  - injection H as ->. destruct (busy k), (busy x); cbn [length b2n]; lia.
  - assert (Q := IH i k x H). destruct (busy a); cbn [length]; lia.
Qed.
Lemma busies_none ls : busies ls = 0 -> forall i k, nth_error ls i = Some k -> k_total k = 0.
Proof.
  unfold busies. intros H i k E. apply nth_error_In in E. destruct (Nat.eqb_spec (k_total k) 0) as [Z|Z]; [exact Z|].
  assert (I : In k (filter busy ls)) by (apply filter_In; split; [exact E|]; unfold busy; destruct (Nat.eqb_spec (k_total k) 0); [contradiction|reflexivity]). destruct (filter busy ls); [destruct I|discriminate H].
Qed.
Lemma busies_le ls : busies ls <= length ls.
Proof. unfold busies. induction ls as [|k ls IH]; [apply le_n|]. cbn [filter length]. destruct (busy k); cbn [length]; lia. Qed.
Lemma busies_some ls : busies ls <> 0 -> exists i k, nth_error ls i = Some k /\ k_total k <> 0.
Proof.
  unfold busies. intros H. destruct (filter busy ls) as [|k r] eqn:E; [destruct (H eq_refl)|]. assert (I : In k (filter busy ls)) by (rewrite E; left; reflexivity). apply filter_In in I as (I & B).
  apply In_nth_error in I as (i & I). exists i, k. split; [exact I|]. unfold busy in B. destruct (Nat.eqb_spec (k_total k) 0); [discriminate B|assumption].
Qed.

(** ** traces *)
Lemma back_aux_app i a b : forall acc, back_aux i acc (a ++ b) = back_aux i (back_aux i acc a) b.
Proof. induction a as [|e a IH]; intros acc; [reflexivity|]. destruct e; cbn [app back_aux]; apply IH. Qed.
Lemma back_app i a b : back i (a ++ b) = back_aux i (back i a) b.
Proof. apply back_aux_app. Qed.
Lemma tests_app a b : tests (a ++ b) = tests a + tests b.
Proof. unfold tests. rewrite filter_app, app_length. reflexivity. Qed.
Lemma last_app a b : last_test (a ++ b) = match last_test b with Some p => Some p | None => last_test a end.
Proof. induction a as [|e a IH]; cbn [app last_test]; [destruct (last_test b); reflexivity|]. rewrite IH. destruct (last_test b); reflexivity. Qed.

(** ** counting bytes of some kind *)
Section Count.
Variable w : nat -> nat -> bool.
Definition cnt (i : nat) (t : list pev) : nat := length (filter (w (tests t)) (back i t)).
Lemma cnt_back i j bs t e : tests e = 0 -> (forall acc, back_aux i acc e = acc) -> cnt i (t ++ EBack j bs :: e) = cnt i t + if j =? i then length (filter (w (tests t)) bs) else 0.
Proof.
  intros T B. unfold cnt. rewrite back_app, tests_app. change (tests (EBack j bs :: e)) with (tests e). rewrite T, Nat.add_0_r. cbn [back_aux]. rewrite B.
  destruct (j =? i); [rewrite filter_app, app_length; reflexivity|lia].
Qed.
Lemma cnt_same i t e : tests e = 0 -> (forall acc, back_aux i acc e = acc) -> cnt i (t ++ e) = cnt i t.
Proof. intros T B. unfold cnt. rewrite back_app, tests_app, T, Nat.add_0_r, B. reflexivity. Qed.

Variable c : pcfg.
(** link [i] when begin was called on the first [m] links *)
Definition link_ok (s : pst) (t : list pev) (m i : nat) (k : plink) : Prop :=
  (k_total k = 0 /\ (i < m -> q_num s * q_len s <= cnt i t)) \/
  (i < m /\ k_total k = q_len s * q_num s /\ k_recv k < k_total k /\ k_recv k <= cnt i t /\ forall b, In b (on_way k) -> w (q_test s) b = true).
Record J (s : pst) (t : list pev) : Prop := mk_J {
  j_len : length (q_links s) = p_links c;
  j_test : tests t = q_test s;
  j_par : q_run s = true -> last_test t = Some (q_num s, q_len s) /\ 1 <= q_num s /\ 1 <= q_len s <= p_bufsz c;
  j_todo : exists m, m <= p_links c /\ q_todo s = seq m (p_links c - m) /\ (q_run s = false -> m = p_links c) /\ q_done s = N.of_nat (p_links c - m + busies (q_links s)) /\
           (q_run s = false -> busies (q_links s) = 0) /\ forall i k, nth_error (q_links s) i = Some k -> link_ok s t m i k }.

Lemma J_link s t i k k1 d e : J s t -> nth_error (q_links s) i = Some k -> tests e = 0 -> last_test e = None ->
  (forall m, m <= p_links c -> link_ok s t m i k -> link_ok s (t ++ e) m i k1) -> (forall j, j <> i -> cnt j (t ++ e) = cnt j t) ->
  (k_total k = 0 -> k_total k1 = 0) -> d = (if busy k && negb (busy k1) then q_done s - 1 else q_done s)%N ->
  J (mk_q (set_at i k1 (q_links s)) d (q_todo s) (q_run s) (q_test s) (q_num s) (q_len s)) (t ++ e).
Proof.
  intros [J1 J2 J3 (m & M1 & M2 & M3 & M4 & M5 & M6)] K TE LE LK OT TZ HD. assert (B := busies_set (q_links s) i k k1 K).
  constructor; cbn [q_links q_done q_todo q_run q_test q_num q_len].
  - rewrite set_at_len. exact J1.
  - rewrite tests_app, TE, Nat.add_0_r. exact J2.
  - intros R. rewrite last_app, LE. exact (J3 R).
  - exists m. split; [exact M1|]. split; [exact M2|]. split; [exact M3|]. split; [|split].
    + rewrite HD, M4. unfold busy in *. destruct (Nat.eqb_spec (k_total k) 0) as [Z|Z].
      * rewrite (TZ Z) in *. cbn [Nat.eqb negb andb b2n] in *. f_equal. lia.
      * destruct (k_total k1 =? 0); cbn [negb andb b2n] in *; [|f_equal; lia]. lia.
    + intros R. specialize (M5 R). assert (Z := busies_none _ M5 i k K). unfold busy in B. rewrite Z, (TZ Z) in B. cbn [Nat.eqb negb b2n] in B. lia.
    + intros j x E. rewrite (set_at_nth _ i j k1 k K) in E. destruct (Nat.eqb_spec j i) as [->|N].
      * injection E as <-. exact (LK m M1 (M6 i k K)).
      * assert (Q := M6 j x E). unfold link_ok in *. cbn [q_num q_len q_test] in *. rewrite (OT j N). exact Q.
Qed.

(** bytes go on: nothing else changes *)
Lemma J_move s t i k k1 e : J s t -> nth_error (q_links s) i = Some k -> tests e = 0 -> last_test e = None -> (forall j, cnt j (t ++ e) = cnt j t) ->
  k_total k1 = k_total k -> k_recv k1 = k_recv k -> incl (on_way k1) (on_way k) -> J (with_link s i k1) (t ++ e).
Proof.
  intros HJ K TE LE CT ET ER IC. apply (J_link s t i k k1 _ e HJ K TE LE).
  - intros m _ L. unfold link_ok in *. rewrite CT, ET, ER. destruct L as [L|(L1 & L2 & L3 & L4 & L5)]; [left; exact L|right]. repeat (split; [assumption|]). intros b Hb. exact (L5 b (IC b Hb)).
  - intros j _. apply CT.
  - congruence.
  - unfold busy. rewrite ET. destruct (k_total k =? 0); reflexivity.
Qed.

Definition begin_ok (s : pst) (a : pact) : Prop :=
  match a, q_todo s with TBegin, i :: _ => forall k, nth_error (q_links s) i = Some k -> forall b, In b (on_way k) -> w (q_test s) b = true | _, _ => True end.
Hypothesis HN : (N.of_nat (p_links c) < 65536)%N.
Hypothesis HW : forall n, w n n = true.

Lemma incl_on k k1 : (forall b, In b (k_out k1) \/ In b (k_up k1) \/ In b (k_srv k1) \/ In b (k_down k1) -> In b (k_out k) \/ In b (k_up k) \/ In b (k_srv k) \/ In b (k_down k)) -> incl (on_way k1) (on_way k).
Proof. intros H b. unfold on_way. rewrite !in_app_iff. intros Q. apply H. tauto. Qed.
Lemma in_first {A} n (l : list A) b : In b (firstn n l) -> In b l.
Proof. intros H. rewrite <- (firstn_skipn n l). apply in_or_app. left. exact H. Qed.
Lemma in_skip {A} n (l : list A) b : In b (skipn n l) -> In b l.
Proof. intros H. rewrite <- (firstn_skipn n l). apply in_or_app. right. exact H. Qed.

Lemma J_step s t a s1 e : J s t -> begin_ok s a -> pstep c s a = Some (s1, e) -> J s1 (t ++ e).
Proof.
  intros HJ HB H. destruct a as [num len| | |i n|i n|i n|i n]; cbn [pstep] in H.
  - (* TStart *) destruct HJ as [J1 J2 J3 (m & M1 & M2 & M3 & M4 & M5 & M6)].
    destruct (negb (q_run s) && (1 <=? num) && (1 <=? len) && (len <=? p_bufsz c)) eqn:G; [|discriminate H]. injection H as <- <-.
    apply andb_prop in G as (G & G4). apply andb_prop in G as (G & G3). apply andb_prop in G as (G1 & G2). apply Nat.leb_le in G2, G3, G4. apply negb_true_iff in G1. specialize (M5 G1).
    constructor; cbn [q_links q_done q_todo q_run q_test q_num q_len].
    + exact J1.
    + rewrite tests_app, J2. change (tests [EStart num len]) with 1. lia.
    + intros _. rewrite last_app. cbn [last_test]. repeat split; assumption.
    + exists 0. rewrite Nat.sub_0_r, M5, Nat.add_0_r. split; [lia|]. split; [reflexivity|]. split; [discriminate|]. split; [apply N.mod_small; exact HN|]. split; [discriminate|].
      intros i k K. left. split; [exact (busies_none _ M5 i k K)|lia].
  - (* TBegin *) destruct HJ as [J1 J2 J3 (m & M1 & M2 & M3 & M4 & M5 & M6)]. cbn [begin_ok] in HB.
    destruct (q_todo s) as [|i r] eqn:TD; [discriminate H|]. destruct (nth_error (q_links s) i) as [k|] eqn:K; [|discriminate H].
    assert (LT : m < p_links c) by (destruct (Nat.eq_dec m (p_links c)) as [Q|Q]; [rewrite Q, Nat.sub_diag in M2; discriminate M2|lia]).
    replace (p_links c - m) with (S (p_links c - S m)) in M2 by lia. cbn [seq] in M2. injection M2 as -> ->.
    set (room := length (k_out k) <? p_limit c) in *. set (k1 := mk_k (if room then k_out k ++ repeat (q_test s) (q_len s) else k_out k) (k_up k) (k_srv k) (k_down k) (q_len s * q_num s) 0) in *.
    injection H as <- <-. assert (RUN : q_run s = true) by (destruct (q_run s); [reflexivity|specialize (M3 eq_refl); lia]). destruct (J3 RUN) as (P1 & P2 & P3).
    assert (CT : forall j, cnt j (t ++ (if room then [] else [ERefused m])) = cnt j t) by (intros j; apply cnt_same; destruct room; reflexivity).
    assert (Z : k_total k = 0) by (destruct (M6 m k K) as [(Z & _)|(Q & _)]; [exact Z|lia]).
    assert (B := busies_set (q_links s) m k k1 K). unfold busy in B. rewrite Z in B. cbn [k_total k1] in B.
    assert (TP : q_len s * q_num s <> 0) by nia. destruct (Nat.eqb_spec (q_len s * q_num s) 0) as [Q|_]; [contradiction|]. cbn [Nat.eqb negb b2n] in B.
    constructor; cbn [q_links q_done q_todo q_run q_test q_num q_len].
    + rewrite set_at_len. exact J1.
    + rewrite tests_app, J2. destruct room; apply Nat.add_0_r.
    + intros _. rewrite last_app. destruct room; cbn [last_test]; repeat split; assumption || lia.
    + exists (S m). split; [lia|]. split; [reflexivity|]. split; [intros Q; rewrite RUN in Q; discriminate Q|]. split; [rewrite M4; f_equal; lia|]. split; [intros Q; rewrite RUN in Q; discriminate Q|].
      intros j x E. rewrite (set_at_nth _ m j k1 k K) in E. unfold link_ok. cbn [q_num q_len q_test]. rewrite CT. destruct (Nat.eqb_spec j m) as [->|N].
      * injection E as <-. right. split; [lia|]. split; [reflexivity|]. split; [cbn [k_recv k_total k1]; lia|]. split; [cbn [k_recv k1]; lia|]. intros b Hb. unfold on_way in Hb. cbn [k_out k_up k_srv k_down k1] in Hb.
        rewrite !in_app_iff in Hb. assert (OLD : In b (on_way k) -> w (q_test s) b = true) by exact (HB k eq_refl b). unfold on_way in OLD. rewrite !in_app_iff in OLD.
        destruct room; [rewrite in_app_iff in Hb; destruct Hb as [[Hb|Hb]|Hb]; [tauto| |tauto]; apply repeat_spec in Hb; subst b; apply HW|tauto].
      * destruct (M6 j x E) as [(L1 & L2)|(L1 & L2)]; [left; split; [exact L1|intros Q; apply L2; lia]|right; split; [lia|exact L2]].
  - (* TEnd *) destruct HJ as [J1 J2 J3 (m & M1 & M2 & M3 & M4 & M5 & M6)]. destruct (q_run s && (q_done s =? 0)%N && match q_todo s with [] => true | _ :: _ => false end) eqn:G; [|discriminate H]. injection H as <- <-.
    apply andb_prop in G as (G & G3). apply andb_prop in G as (G1 & G2). apply N.eqb_eq in G2. assert (MP : m = p_links c) by (rewrite M2 in G3; destruct (p_links c - m) eqn:Q; [lia|discriminate G3]).
    constructor; cbn [q_links q_done q_todo q_run q_test q_num q_len].
    + exact J1.
    + rewrite tests_app, J2. apply Nat.add_0_r.
    + discriminate.
    + exists m. subst m. rewrite Nat.sub_diag in *. split; [lia|]. split; [reflexivity|]. split; [reflexivity|]. split; [exact M4|]. split; [intros _; lia|].
      intros i k K. assert (Q := M6 i k K). unfold link_ok in *. cbn [q_num q_len q_test]. rewrite (cnt_same i t [EFinished] eq_refl (fun _ => eq_refl)). exact Q.
  - (* CWrite *) destruct (nth_error (q_links s) i) as [k|] eqn:K; [|discriminate H]. destruct ((1 <=? n) && (n <=? length (k_out k))); [|discriminate H]. injection H as <- <-.
    apply (J_move s t i k _ [] HJ K eq_refl eq_refl); try reflexivity; [intros j; apply cnt_same; reflexivity|]. apply incl_on. cbn [k_out k_up k_srv k_down]. intros b. rewrite in_app_iff. intros [Q|[[Q|Q]|Q]]; eauto using in_first, in_skip.
  - (* SRead *) destruct (nth_error (q_links s) i) as [k|] eqn:K; [|discriminate H]. destruct ((1 <=? n) && (n <=? length (k_up k)) && (n <=? p_bufsz c)); [|discriminate H].
    destruct (length (k_srv k) <? p_limit c); injection H as <- <-.
    + apply (J_move s t i k _ [] HJ K eq_refl eq_refl); try reflexivity; [intros j; apply cnt_same; reflexivity|]. apply incl_on. cbn [k_out k_up k_srv k_down]. intros b. rewrite in_app_iff. intros [Q|[Q|[[Q|Q]|Q]]]; eauto using in_first, in_skip.
    + apply (J_move s t i k _ [EDrop i (firstn n (k_up k))] HJ K eq_refl eq_refl); try reflexivity; [intros j; apply cnt_same; reflexivity|]. apply incl_on. cbn [k_out k_up k_srv k_down]. intros b. intros [Q|[Q|[Q|Q]]]; eauto using in_first, in_skip.
  - (* SWrite *) destruct (nth_error (q_links s) i) as [k|] eqn:K; [|discriminate H]. destruct ((1 <=? n) && (n <=? length (k_srv k))); [|discriminate H]. injection H as <- <-.
    apply (J_move s t i k _ [] HJ K eq_refl eq_refl); try reflexivity; [intros j; apply cnt_same; reflexivity|]. apply incl_on. cbn [k_out k_up k_srv k_down]. intros b. rewrite in_app_iff. intros [Q|[Q|[Q|[Q|Q]]]]; eauto 6 using in_first, in_skip.
  - (* CRead *) destruct (nth_error (q_links s) i) as [k|] eqn:K; [|discriminate H]. destruct ((1 <=? n) && (n <=? length (k_down k)) && (n <=? p_bufsz c)); [|discriminate H].
    set (got := firstn n (k_down k)) in *. unfold handle in H. assert (J2 := j_test _ _ HJ).
    assert (OT : forall e0, tests e0 = 0 -> (forall j acc, back_aux j acc e0 = acc) -> forall j, j <> i -> cnt j (t ++ EBack i got :: e0) = cnt j t).
    { intros e0 T0 B0 j N. rewrite (cnt_back j i got t e0 T0 (B0 j)). destruct (Nat.eqb_spec i j) as [->|_]; [destruct (N eq_refl)|lia]. }
    assert (CI : forall e0, tests e0 = 0 -> (forall j acc, back_aux j acc e0 = acc) -> cnt i (t ++ EBack i got :: e0) = cnt i t + length (filter (w (tests t)) got)).
    { intros e0 T0 B0. rewrite (cnt_back i i got t e0 T0 (B0 i)). rewrite Nat.eqb_refl. reflexivity. }
    assert (ALL : (forall b, In b (on_way k) -> w (q_test s) b = true) -> length (filter (w (tests t)) got) = length got).
    { intros A. rewrite J2. assert (G : forall b, In b got -> w (q_test s) b = true) by (intros b Hb; apply A; unfold on_way; rewrite !in_app_iff; right; right; right; exact (in_first n _ b Hb)).
      clear - G. induction got as [|x got IH]; [reflexivity|]. cbn [filter]. rewrite (G x (or_introl eq_refl)). cbn [length]. rewrite IH; [reflexivity|]. intros b Hb. apply G. right. exact Hb. }
    destruct (Nat.eqb_spec (k_total k) 0) as [Z|Z]; [|destruct (Nat.leb_spec (k_total k) (k_recv k + length got)) as [L|L]].
    + injection H as <- <-. apply (J_link s t i k _ _ [EBack i got] HJ K eq_refl eq_refl).
      * intros m _ LK. destruct LK as [(L1 & L2)|(L1 & L2 & L3 & _)]; [|lia]. left. cbn [k_total]. split; [exact L1|]. intros Q. rewrite (CI [] eq_refl (fun _ _ => eq_refl)). specialize (L2 Q). lia.
      * exact (OT [] eq_refl (fun _ _ => eq_refl)).
      * intros _. exact Z.
      * unfold busy. cbn [k_total]. rewrite Z. reflexivity.
    + injection H as <- <-. apply (J_link s t i k _ _ [EBack i got; EDone i] HJ K eq_refl eq_refl).
      * intros m _ LK. destruct LK as [(L1 & L2)|(L1 & L2 & L3 & L4 & L5)]; [contradiction|]. left. cbn [k_total]. split; [reflexivity|]. intros _. rewrite (CI [EDone i] eq_refl (fun _ _ => eq_refl)). rewrite (ALL L5). lia.
      * exact (OT [EDone i] eq_refl (fun _ _ => eq_refl)).
      * reflexivity.
      * unfold busy. cbn [k_total with_link q_done]. destruct (Nat.eqb_spec (k_total k) 0) as [Q|Q]; [contradiction|]. cbn [negb andb Nat.eqb].
        destruct HJ as [J1 _ _ (m & M1 & M2 & M3 & M4 & M5 & M6)]. assert (B1 : busies (q_links s) <> 0) by (intros B; exact (Z (busies_none _ B i k K))).
        destruct (M6 i k K) as [(Q1 & _)|(Q1 & _)]; [contradiction|].
        assert (B2 : busies (q_links s) <= m).
        { clear - M6 J1. assert (Q : forall j x, nth_error (q_links s) j = Some x -> m <= j -> busy x = false).
          { intros j x E L. destruct (M6 j x E) as [(Q & _)|(Q & _)]; [unfold busy; rewrite Q; reflexivity|lia]. }
          clear M6 J1. revert Q. generalize (q_links s) as ls. intros ls. revert m. induction ls as [|x ls IH]; intros m Q; [unfold busies; cbn; lia|].
          unfold busies in *. cbn [filter]. destruct m as [|m].
          - rewrite (Q 0 x eq_refl ltac:(lia)). apply (IH 0). intros j y E _. exact (Q (S j) y E ltac:(lia)).
          - assert (R := IH m (fun j y E L => Q (S j) y E ltac:(lia))). destruct (busy x); cbn [length]; lia. }
        rewrite M4. replace (N.of_nat (p_links c - m + busies (q_links s)) + 65535)%N with (N.of_nat (p_links c - m + busies (q_links s)) - 1 + 1 * 65536)%N by lia. rewrite N.mod_add by lia. apply N.mod_small. lia.
    + injection H as <- <-. apply (J_link s t i k _ _ [EBack i got] HJ K eq_refl eq_refl).
      * intros m _ LK. destruct LK as [(L1 & L2)|(L1 & L2 & L3 & L4 & L5)]; [contradiction|]. right. cbn [k_total k_recv]. rewrite (CI [] eq_refl (fun _ _ => eq_refl)), (ALL L5). split; [exact L1|]. split; [exact L2|]. split; [exact L|]. split; [lia|].
        intros b Hb. apply L5. unfold on_way in *. cbn [k_out k_up k_srv k_down] in Hb. rewrite !in_app_iff in *. destruct Hb as [[Hb|Hb]|[Hb|[Hb|Hb]]]; eauto 6 using in_first, in_skip.
      * exact (OT [] eq_refl (fun _ _ => eq_refl)).
      * intros Q. contradiction.
      * unfold busy. cbn [k_total]. destruct (k_total k =? 0); reflexivity.
Qed.

Fixpoint begins_ok (s : pst) (l : list pact) : Prop :=
  match l with [] => True | a :: l' => begin_ok s a /\ match pstep c s a with Some (s1, _) => begins_ok s1 l' | None => True end end.
Lemma J_init : J (p0 c) [].
Proof.
  assert (B : busies (repeat idle_link (p_links c)) = 0) by (generalize (p_links c) as n; intros n; unfold busies; induction n as [|n IH]; [reflexivity|exact IH]).
  constructor; cbn [p0 q_links q_done q_todo q_run q_test q_num q_len]; [apply repeat_length|reflexivity|discriminate|]. exists (p_links c). rewrite Nat.sub_diag, B.
  split; [apply le_n|]. split; [reflexivity|]. split; [reflexivity|]. split; [reflexivity|]. split; [reflexivity|]. intros i k K. left. split; [|intros _; apply Nat.le_0_l]. apply nth_error_In, repeat_spec in K. subst k. reflexivity.
Qed.
Lemma J_run l : forall s t s1 e, J s t -> begins_ok s l -> prun c s l = Some (s1, e) -> J s1 (t ++ e).
Proof.
  induction l as [|a l IH]; intros s t s1 e HJ HB H; cbn [prun] in H.
  - injection H as <- <-. rewrite app_nil_r. exact HJ.
  - destruct HB as (B1 & B2). destruct (pstep c s a) as [(s2, e2)|] eqn:ST; [|discriminate H]. destruct (prun c s2 l) as [(s3, e3)|] eqn:R; [|discriminate H]. injection H as <- <-.
    rewrite app_assoc. exact (IH s2 (t ++ e2) s3 e3 (J_step s t a s2 e2 HJ B1 ST) B2 R).
Qed.
End Count.

(** ** the moment at which the end is reported *)
Lemma step_fin c s a s1 e : pstep c s a = Some (s1, e) -> In EFinished e -> a = TEnd /\ e = [EFinished].
Proof.
  intros H I. destruct a as [num len| | |i n|i n|i n|i n]; cbn [pstep] in H.
  - destruct (_ && _); [|discriminate H]. injection H as _ <-. destruct I as [I|[]]. discriminate I.
  - destruct (q_todo s); [discriminate H|]. destruct (nth_error _ _); [|discriminate H]. injection H as _ <-. destruct (_ <? _); [destruct I|destruct I as [I|[]]; discriminate I].
  - destruct (_ && _); [|discriminate H]. injection H as _ <-. split; reflexivity.
  - destruct (nth_error _ _); [|discriminate H]. destruct (_ && _); [|discriminate H]. injection H as _ <-. destruct I.
  - destruct (nth_error _ _); [|discriminate H]. destruct (_ && _); [|discriminate H]. destruct (_ <? _); injection H as _ <-; [destruct I|destruct I as [I|[]]; discriminate I].
  - destruct (nth_error _ _); [|discriminate H]. destruct (_ && _); [|discriminate H]. injection H as _ <-. destruct I.
  - destruct (nth_error _ _); [|discriminate H]. destruct (_ && _); [|discriminate H]. destruct (handle _ _ _) as (k1, o). destruct o; injection H as _ <-; cbn [In] in I; repeat (destruct I as [I|I]; [discriminate I|]); destruct I.
Qed.
Lemma run_split c l : forall s s2 t1 t2, prun c s l = Some (s2, t1 ++ EFinished :: t2) -> exists l1 l2 s1, l = l1 ++ TEnd :: l2 /\ prun c s l1 = Some (s1, t1) /\ exists s3, pstep c s1 TEnd = Some (s3, [EFinished]).
Proof.
  induction l as [|a l IH]; intros s s2 t1 t2 H; cbn [prun] in H; [destruct t1; discriminate H|].
  destruct (pstep c s a) as [(s1, e1)|] eqn:ST; [|discriminate H]. destruct (prun c s1 l) as [(s3, e3)|] eqn:R; [|discriminate H]. injection H as <- E.
  apply app_eq_app in E as (x & [(E1 & E2)|(E1 & E2)]).
  - destruct x as [|y x]; cbn [app] in E2.
    + rewrite app_nil_r in E1. subst e1. destruct (IH s1 s3 [] t2) as (l1 & l2 & s4 & Q1 & Q2 & Q3); [rewrite R, <- E2; reflexivity|].
      exists (a :: l1), l2, s4. split; [rewrite Q1; reflexivity|]. split; [|exact Q3]. cbn [prun]. rewrite ST, Q2, app_nil_r. reflexivity.
    + injection E2 as <- _. assert (I : In EFinished e1) by (rewrite E1; apply in_or_app; right; left; reflexivity). destruct (step_fin c s a s1 e1 ST I) as (-> & Q). rewrite Q in E1. destruct t1 as [|z t1]; [|destruct t1; discriminate E1].
      exists [], l, s. split; [reflexivity|]. split; [reflexivity|]. exists s1. rewrite ST, Q. reflexivity.
  - subst t1 e3. destruct (IH s1 s3 x t2 R) as (l1 & l2 & s4 & Q1 & Q2 & Q3). exists (a :: l1), l2, s4. split; [rewrite Q1; reflexivity|]. split; [|exact Q3]. cbn [prun]. rewrite ST, Q2. reflexivity.
Qed.
Lemma begins_cut w c l1 l2 : forall s, begins_ok w c s (l1 ++ l2) -> begins_ok w c s l1.
Proof. induction l1 as [|a l1 IH]; intros s H; [exact I|]. destruct H as (H1 & H2). split; [exact H1|]. destruct (pstep c s a) as [(s1, e)|]; [exact (IH s1 H2)|exact I]. Qed.
Lemma quiet_cut c l1 l2 : forall s, quiet c s (l1 ++ l2) -> quiet c s l1.
Proof. induction l1 as [|a l1 IH]; intros s H; [exact I|]. destruct H as (H1 & H2). split; [exact H1|]. destruct (pstep c s a) as [(s1, e)|]; [exact (IH s1 H2)|exact I]. Qed.
Lemma all_begins c l : forall s, begins_ok (fun _ _ => true) c s l.
Proof. induction l as [|a l IH]; intros s; [exact I|]. split; [unfold begin_ok; destruct a; try exact I; destruct (q_todo s); [exact I|reflexivity]|]. destruct (pstep c s a) as [(s1, e)|]; [apply IH|exact I]. Qed.
Lemma quiet_begins c l : forall s, quiet c s l -> begins_ok Nat.eqb c s l.
Proof.
  induction l as [|a l IH]; intros s H; [exact I|]. destruct H as (H1 & H2). split.
  - unfold begin_ok. destruct a; try exact I. destruct (q_todo s) as [|i r]; [exact I|]. intros k K b Hb. rewrite (H1 k K) in Hb. destruct Hb.
  - destruct (pstep c s a) as [(s1, e)|]; [exact (IH s1 H2)|exact I].
Qed.
Lemma fin_counts w c l s t1 t2 i : (N.of_nat (p_links c) < 65536)%N -> (forall n, w n n = true) -> begins_ok w c (p0 c) l -> prun c (p0 c) l = Some (s, t1 ++ EFinished :: t2) -> i < p_links c ->
  exists num len, last_test t1 = Some (num, len) /\ num * len <= cnt w i t1.
Proof.
  intros HN HW HB H Hi. destruct (run_split c l (p0 c) s t1 t2 H) as (l1 & l2 & s1 & -> & R & s3 & ST). assert (JJ := J_run w c HN HW l1 (p0 c) [] s1 t1 (J_init w c) (begins_cut w c l1 _ _ HB) R).
  cbn [app] in JJ. destruct JJ as [J1 J2 J3 (m & M1 & M2 & M3 & M4 & M5 & M6)]. cbn [pstep] in ST. destruct (q_run s1 && (q_done s1 =? 0)%N && match q_todo s1 with [] => true | _ :: _ => false end) eqn:G; [|discriminate ST].
  apply andb_prop in G as (G & G3). apply andb_prop in G as (G1 & G2). apply N.eqb_eq in G2. destruct (J3 G1) as (P1 & P2 & P3). exists (q_num s1), (q_len s1). split; [exact P1|].
  assert (MP : m = p_links c) by (rewrite M2 in G3; destruct (p_links c - m) eqn:Q; [lia|discriminate G3]). assert (B : busies (q_links s1) = 0) by lia.
  destruct (nth_error (q_links s1) i) as [k|] eqn:K; [|apply nth_error_None in K; lia]. destruct (M6 i k K) as [(_ & L)|(_ & L2 & L3 & _)]; [apply L; lia|]. rewrite (busies_none _ B i k K) in L3. lia.
Qed.

Lemma filter_all_true {A} (l : list A) : filter (fun _ => true) l = l.
Proof. induction l as [|x l IH]; [reflexivity|]. cbn [filter]. rewrite IH. reflexivity. Qed.

(** English: when a test is reported as finished, at least as many bytes as were to be sent came back over every link since the test was started. *)
Theorem C145_counted : forall c l s t1 t2 i, (N.of_nat (p_links c) < 65536)%N -> prun c (p0 c) l = Some (s, t1 ++ EFinished :: t2) -> i < p_links c ->
  exists num len, last_test t1 = Some (num, len) /\ num * len <= length (back i t1).
Proof.
  intros c l s t1 t2 i HN H Hi. destruct (fin_counts (fun _ _ => true) c l s t1 t2 i HN (fun _ => eq_refl) (all_begins c l _) H Hi) as (num & len & P & C). exists num, len. split; [exact P|].
  unfold cnt in C. rewrite <- (filter_all_true (back i t1)). exact C.
Qed.
Print Assumptions C145_counted.

(** English: ... and these were sent in this test. *)
Definition C145_statement : Prop := forall c l s t1 t2 i, (N.of_nat (p_links c) < 65536)%N -> p_bufsz c <= p_limit c -> prun c (p0 c) l = Some (s, t1 ++ EFinished :: t2) -> i < p_links c ->
  exists num len, last_test t1 = Some (num, len) /\ num * len <= length (own i t1).
(** this holds if nothing is on its way on a link when a test is begun there *)
Theorem C145_partial : forall c l s t1 t2 i, (N.of_nat (p_links c) < 65536)%N -> quiet c (p0 c) l -> prun c (p0 c) l = Some (s, t1 ++ EFinished :: t2) -> i < p_links c ->
  exists num len, last_test t1 = Some (num, len) /\ num * len <= length (own i t1).
Proof. intros c l s t1 t2 i HN HQ H Hi. exact (fin_counts Nat.eqb c l s t1 t2 i HN Nat.eqb_refl (quiet_begins c l _ HQ) H Hi). Qed.
Print Assumptions C145_partial.

Definition ex_c : pcfg := mk_pc 100 10 2.
Definition lap (i n : nat) : list pact := [CWrite i n; SRead i n; SWrite i n; CRead i n].
Definition ex_l : list pact := [TStart 2 3; TBegin] ++ lap 0 2 ++ [TBegin] ++ lap 0 1 ++ lap 1 3 ++ lap 0 2 ++ lap 0 1 ++ lap 1 3 ++ [TEnd].
Example C145_example : (exists s t, prun ex_c (p0 ex_c) ex_l = Some (s, t) /\ exists t1, t = t1 ++ [EFinished] /\ own 0 t1 = [1; 1; 1; 1; 1; 1] /\ length (back 1 t1) = 6) /\ quiet ex_c (p0 ex_c) ex_l.
Proof.
  split.
  - do 2 eexists. split; [vm_compute; reflexivity|]. exists [EStart 2 3; EBack 0 [1; 1]; EBack 0 [1]; EBack 1 [1; 1; 1]; EBack 0 [1; 1]; EBack 0 [1]; EDone 0; EBack 1 [1; 1; 1]; EDone 1]. split; [reflexivity|]. split; reflexivity.
  - vm_compute. repeat split; intros k E; injection E as <-; reflexivity.
Qed.

(** English: bytes of one test that come back during the next one are counted there: a test of two bytes is finished when one of them came back. *)
Theorem C145_refuted : exists c l s t1 i num len, (N.of_nat (p_links c) < 65536)%N /\ p_bufsz c <= p_limit c /\ prun c (p0 c) l = Some (s, t1 ++ [EFinished]) /\ i < p_links c /\
  last_test t1 = Some (num, len) /\ num * len = 2 /\ length (own i t1) = 1.
Proof.
  exists (mk_pc 100 10 1), ([TStart 1 2; TBegin; CWrite 0 2; SRead 0 2; SWrite 0 2; CRead 0 1; CRead 0 1; TEnd] ++ [TStart 1 2; TBegin; CWrite 0 3; SRead 0 3; SWrite 0 3; CRead 0 1; CRead 0 1; TEnd]).
  eexists. exists [EStart 1 2; EBack 0 [1]; EBack 0 [1]; EDone 0; EFinished; EStart 1 2; EBack 0 [1]; EBack 0 [2]; EDone 0], 0, 1, 2.
  split; [reflexivity|]. split; [cbn; lia|]. split; [vm_compute; reflexivity|]. split; [cbn; lia|]. split; [reflexivity|]. split; reflexivity.
Qed.
Print Assumptions C145_refuted.
Theorem C145_statement_refuted : ~ C145_statement.
Proof.
  intros H. destruct C145_refuted as (c & l & s & t1 & i & num & len & H1 & H2 & H3 & H4 & H5 & H6 & H7). destruct (H c l s t1 [] i H1 H2 H3 H4) as (a & b & Q1 & Q2). rewrite H5 in Q1. injection Q1 as <- <-. lia.
Qed.
Print Assumptions C145_statement_refuted.

(** ** nothing is lost *)
Definition K (c : pcfg) (s : pst) : Prop := forall i k, nth_error (q_links s) i = Some k -> length (on_way k) <= p_bufsz c /\ (k_total k <> 0 -> length (on_way k) = q_len s).
Definition loss (e : pev) : bool := match e with EDrop _ _ | ERefused _ => true | _ => false end.
Lemma on_len k : length (on_way k) = length (k_out k) + length (k_up k) + length (k_srv k) + length (k_down k).
Proof. unfold on_way. rewrite !app_length. lia. Qed.
Lemma K_link c s i k k1 : K c s -> nth_error (q_links s) i = Some k -> length (on_way k1) <= length (on_way k) -> (k_total k1 <> 0 -> k_total k <> 0 /\ length (on_way k1) = length (on_way k)) -> K c (with_link s i k1).
Proof.
  intros HK E L T j x X. cbn [with_link q_links q_len] in *. rewrite (set_at_nth _ i j k1 k E) in X. destruct (j =? i); [injection X as <-|exact (HK j x X)]. destruct (HK i k E) as (A & B). split; [lia|]. intros Q. destruct (T Q) as (T1 & T2). rewrite T2. exact (B T1).
Qed.
Lemma K_step c s t a s1 e : p_bufsz c <= p_limit c -> J Nat.eqb c s t -> K c s -> match a, q_todo s with TBegin, i :: _ => forall k, nth_error (q_links s) i = Some k -> on_way k = [] | _, _ => True end ->
  pstep c s a = Some (s1, e) -> K c s1 /\ existsb loss e = false.
Proof.
  intros HL HJ HK HQ H. destruct a as [num len| | |i n|i n|i n|i n]; cbn [pstep] in H.
  - destruct HJ as [J1 J2 J3 (m & M1 & M2 & M3 & M4 & M5 & M6)]. destruct (negb (q_run s) && (1 <=? num) && (1 <=? len) && (len <=? p_bufsz c)) eqn:G; [|discriminate H]. injection H as <- <-. split; [|reflexivity].
    apply andb_prop in G as (G & G4). apply andb_prop in G as (G & G3). apply andb_prop in G as (G1 & G2). apply negb_true_iff in G1. specialize (M5 G1). intros i k E. cbn [q_links q_len] in *. split; [exact (proj1 (HK i k E))|].
    intros Q. destruct (Q (busies_none _ M5 i k E)).
  - destruct HJ as [J1 J2 J3 (m & M1 & M2 & M3 & M4 & M5 & M6)]. destruct (q_todo s) as [|i r] eqn:TD; [discriminate H|]. destruct (nth_error (q_links s) i) as [k|] eqn:E; [|discriminate H]. specialize (HQ k eq_refl).
    assert (RUN : q_run s = true) by (destruct (q_run s); [reflexivity|]; rewrite (M3 eq_refl), Nat.sub_diag in M2; discriminate M2). destruct (J3 RUN) as (P1 & P2 & P3).
    unfold on_way in HQ. apply app_eq_nil in HQ as (E1 & HQ). apply app_eq_nil in HQ as (E2 & HQ). apply app_eq_nil in HQ as (E3 & E4). rewrite E1 in H. cbn [length] in H. destruct (Nat.ltb_spec 0 (p_limit c)) as [LI|LI]; [|lia].
    injection H as <- <-. split; [|reflexivity]. intros j x X. cbn [q_links q_len] in *. rewrite (set_at_nth _ i j _ k E) in X. destruct (j =? i); [|exact (HK j x X)]. injection X as <-. rewrite on_len. cbn [k_out k_up k_srv k_down app].
    rewrite E2, E3, E4, repeat_length. cbn [length]. lia.
  - destruct (_ && _); [|discriminate H]. injection H as <- <-. split; [exact HK|reflexivity].
  - destruct (nth_error (q_links s) i) as [k|] eqn:E; [|discriminate H]. destruct ((1 <=? n) && (n <=? length (k_out k))) eqn:G; [|discriminate H]. apply andb_prop in G as (G1 & G2). apply Nat.leb_le in G1, G2. injection H as <- <-. split; [|reflexivity].
    assert (L : length (on_way (mk_k (skipn n (k_out k)) (k_up k ++ firstn n (k_out k)) (k_srv k) (k_down k) (k_total k) (k_recv k))) = length (on_way k)) by (rewrite !on_len; cbn [k_out k_up k_srv k_down]; rewrite app_length, skipn_length, firstn_length_le by exact G2; lia).
    apply (K_link c s i k); [exact HK|exact E|rewrite L; apply le_n|]. intros Q. split; [exact Q|exact L].
  - destruct (nth_error (q_links s) i) as [k|] eqn:E; [|discriminate H]. destruct ((1 <=? n) && (n <=? length (k_up k)) && (n <=? p_bufsz c)) eqn:G; [|discriminate H]. apply andb_prop in G as (G & G3). apply andb_prop in G as (G1 & G2). apply Nat.leb_le in G1, G2, G3.
    destruct (HK i k E) as (A & _). rewrite on_len in A. destruct (Nat.ltb_spec (length (k_srv k)) (p_limit c)) as [LI|LI]; [|lia]. injection H as <- <-. split; [|reflexivity].
    assert (L : length (on_way (mk_k (k_out k) (skipn n (k_up k)) (k_srv k ++ firstn n (k_up k)) (k_down k) (k_total k) (k_recv k))) = length (on_way k)) by (rewrite !on_len; cbn [k_out k_up k_srv k_down]; rewrite app_length, skipn_length, firstn_length_le by exact G2; lia).
    apply (K_link c s i k); [exact HK|exact E|rewrite L; apply le_n|]. intros Q. split; [exact Q|exact L].
  - destruct (nth_error (q_links s) i) as [k|] eqn:E; [|discriminate H]. destruct ((1 <=? n) && (n <=? length (k_srv k))) eqn:G; [|discriminate H]. apply andb_prop in G as (G1 & G2). apply Nat.leb_le in G1, G2. injection H as <- <-. split; [|reflexivity].
    assert (L : length (on_way (mk_k (k_out k) (k_up k) (skipn n (k_srv k)) (k_down k ++ firstn n (k_srv k)) (k_total k) (k_recv k))) = length (on_way k)) by (rewrite !on_len; cbn [k_out k_up k_srv k_down]; rewrite app_length, skipn_length, firstn_length_le by exact G2; lia).
    apply (K_link c s i k); [exact HK|exact E|rewrite L; apply le_n|]. intros Q. split; [exact Q|exact L].
  - destruct (nth_error (q_links s) i) as [k|] eqn:E; [|discriminate H]. destruct ((1 <=? n) && (n <=? length (k_down k)) && (n <=? p_bufsz c)) eqn:G; [|discriminate H]. apply andb_prop in G as (G & G3). apply andb_prop in G as (G1 & G2). apply Nat.leb_le in G1, G2, G3.
    assert (LF : length (firstn n (k_down k)) = n) by (apply firstn_length_le; exact G2).
    unfold handle in H. destruct (Nat.eqb_spec (k_total k) 0) as [Z|Z]; [|destruct (k_total k <=? k_recv k + length (firstn n (k_down k)))]; injection H as <- <-; (split; [|reflexivity]).
    + apply (K_link c s i k _ HK E); [rewrite !on_len; cbn [k_out k_up k_srv k_down]; rewrite skipn_length; lia|]. intros Q. destruct (Q Z).
    + match goal with |- K c (mk_q (set_at i ?x (q_links s)) _ _ _ _ _ _) => change (K c (with_link s i x)) end.
      apply (K_link c s i k _ HK E); [rewrite !on_len; cbn [k_out k_up k_srv k_down]; rewrite skipn_length; lia|]. intros Q. destruct (Q eq_refl).
    + assert (L : length (on_way (mk_k (k_out k ++ firstn n (k_down k)) (k_up k) (k_srv k) (skipn n (k_down k)) (k_total k) (k_recv k + length (firstn n (k_down k))))) = length (on_way k)) by (rewrite !on_len; cbn [k_out k_up k_srv k_down]; rewrite app_length, skipn_length, LF; lia).
      apply (K_link c s i k _ HK E); [rewrite L; apply le_n|]. intros Q. split; [exact Q|exact L].
Qed.
Lemma K_run c l : (N.of_nat (p_links c) < 65536)%N -> p_bufsz c <= p_limit c -> forall s t s1 e, J Nat.eqb c s t -> K c s -> quiet c s l -> prun c s l = Some (s1, e) -> J Nat.eqb c s1 (t ++ e) /\ K c s1 /\ existsb loss e = false.
Proof.
  intros HN HL. induction l as [|a l IH]; intros s t s1 e HJ HK HQ H; cbn [prun] in H.
  - injection H as <- <-. rewrite app_nil_r. auto.
  - destruct HQ as (Q1 & Q2). destruct (pstep c s a) as [(s2, e2)|] eqn:ST; [|discriminate H]. destruct (prun c s2 l) as [(s3, e3)|] eqn:R; [|discriminate H]. injection H as <- <-.
    assert (B : begin_ok Nat.eqb s a) by (unfold begin_ok; destruct a; try exact I; destruct (q_todo s) as [|i r]; [exact I|]; intros k E b Hb; rewrite (Q1 k E) in Hb; destruct Hb).
    assert (J1 := J_step Nat.eqb c HN Nat.eqb_refl s t a s2 e2 HJ B ST). destruct (K_step c s t a s2 e2 HL HJ HK Q1 ST) as (K1 & L1). destruct (IH s2 (t ++ e2) s3 e3 J1 K1 Q2 R) as (R1 & R2 & R3).
    rewrite app_assoc, existsb_app, L1, R3. auto.
Qed.
Lemma K_init c : K c (p0 c).
Proof. intros i k E. cbn [p0 q_links] in E. apply nth_error_In, repeat_spec in E. subst k. split; [cbn; lia|]. intros Q. destruct (Q eq_refl). Qed.

(** English: then the server drops nothing and no message is refused. *)
Theorem C145_no_loss : forall c l s t, (N.of_nat (p_links c) < 65536)%N -> p_bufsz c <= p_limit c -> quiet c (p0 c) l -> prun c (p0 c) l = Some (s, t) -> forall e, In e t -> match e with EDrop _ _ | ERefused _ => False | _ => True end.
Proof.
  intros c l s t HN HL HQ H e I0. destruct (K_run c l HN HL (p0 c) [] s t (J_init Nat.eqb c) (K_init c) HQ H) as (_ & _ & L).
  destruct e; try exact I; (assert (X : existsb loss t = true) by (apply existsb_exists; eexists; split; [exact I0|reflexivity]); rewrite X in L; discriminate L).
Qed.
Print Assumptions C145_no_loss.

(** ** the end comes *)
Definition left_of (k : plink) : nat := 4 * (k_total k - k_recv k) + 4 * length (k_out k) + 3 * length (k_up k) + 2 * length (k_srv k) + length (k_down k).
Fixpoint sum (l : list nat) : nat := match l with [] => 0 | a :: r => a + sum r end.
Definition todo_work (s : pst) : nat := 4 * q_len s + 4 * (q_len s * q_num s) + 1.
Definition work (s : pst) : nat := sum (map left_of (q_links s)) + length (q_todo s) * todo_work s + if q_run s then 1 else 0.
Lemma sum_set ls : forall i k x, nth_error ls i = Some k -> sum (map left_of (set_at i x ls)) + left_of k = sum (map left_of ls) + left_of x.
Proof.
  induction ls as [|a ls IH]; intros [|i] k x H; try discriminate H; cbn [set_at map sum]; [injection H as ->; lia|]. assert (Q := IH i k x H). lia.
Qed.
Lemma work_step c s a s1 e : starts a = false -> pstep c s a = Some (s1, e) -> work s1 < work s.
Proof.
  intros NS H. destruct a as [num len| | |i n|i n|i n|i n]; [discriminate NS| | | | | |]; cbn [pstep] in H.
  - destruct (q_todo s) as [|i r] eqn:TD; [discriminate H|]. destruct (nth_error (q_links s) i) as [k|] eqn:E; [|discriminate H]. injection H as <- <-. unfold work, todo_work. cbn [q_links q_todo q_run q_len q_num]. rewrite TD. cbn [length].
    match goal with |- sum (map left_of (set_at i ?x _)) + _ + _ < _ => assert (Q := sum_set (q_links s) i k x E); assert (B : left_of x <= left_of k + 4 * q_len s + 4 * (q_len s * q_num s)) end.
    { unfold left_of. cbn [k_out k_up k_srv k_down k_total k_recv]. destruct (length (k_out k) <? p_limit c); [rewrite app_length, repeat_length|]; lia. }
    destruct (q_run s); lia.
  - destruct (q_run s) eqn:R; [|discriminate H]. destruct (_ && _); [|discriminate H]. injection H as <- <-. unfold work, todo_work. cbn [q_links q_todo q_run q_len q_num length]. rewrite R. lia.
  - destruct (nth_error (q_links s) i) as [k|] eqn:E; [|discriminate H]. destruct ((1 <=? n) && (n <=? length (k_out k))) eqn:G; [|discriminate H]. apply andb_prop in G as (G1 & G2). apply Nat.leb_le in G1, G2. injection H as <- <-.
    unfold work, todo_work. cbn [with_link q_links q_todo q_run q_len q_num]. match goal with |- sum (map left_of (set_at i ?x _)) + _ + _ < _ => assert (Q := sum_set (q_links s) i k x E); assert (B : left_of x < left_of k) end; [|lia].
    unfold left_of. cbn [k_out k_up k_srv k_down k_total k_recv]. rewrite app_length, skipn_length, firstn_length_le by exact G2. lia.
  - destruct (nth_error (q_links s) i) as [k|] eqn:E; [|discriminate H]. destruct ((1 <=? n) && (n <=? length (k_up k)) && (n <=? p_bufsz c)) eqn:G; [|discriminate H]. apply andb_prop in G as (G & G3). apply andb_prop in G as (G1 & G2). apply Nat.leb_le in G1, G2.
    destruct (length (k_srv k) <? p_limit c); injection H as <- <-; unfold work, todo_work; cbn [with_link q_links q_todo q_run q_len q_num]; (match goal with |- sum (map left_of (set_at i ?x _)) + _ + _ < _ => assert (Q := sum_set (q_links s) i k x E); assert (B : left_of x < left_of k) end; [|lia]);
      unfold left_of; cbn [k_out k_up k_srv k_down k_total k_recv]; rewrite ?app_length, skipn_length, ?firstn_length_le by exact G2; lia.
  - destruct (nth_error (q_links s) i) as [k|] eqn:E; [|discriminate H]. destruct ((1 <=? n) && (n <=? length (k_srv k))) eqn:G; [|discriminate H]. apply andb_prop in G as (G1 & G2). apply Nat.leb_le in G1, G2. injection H as <- <-.
    unfold work, todo_work. cbn [with_link q_links q_todo q_run q_len q_num]. match goal with |- sum (map left_of (set_at i ?x _)) + _ + _ < _ => assert (Q := sum_set (q_links s) i k x E); assert (B : left_of x < left_of k) end; [|lia].
    unfold left_of. cbn [k_out k_up k_srv k_down k_total k_recv]. rewrite app_length, skipn_length, firstn_length_le by exact G2. lia.
  - destruct (nth_error (q_links s) i) as [k|] eqn:E; [|discriminate H]. destruct ((1 <=? n) && (n <=? length (k_down k)) && (n <=? p_bufsz c)) eqn:G; [|discriminate H]. apply andb_prop in G as (G & G3). apply andb_prop in G as (G1 & G2). apply Nat.leb_le in G1, G2.
    assert (LF : length (firstn n (k_down k)) = n) by (apply firstn_length_le; exact G2). unfold handle in H.
    destruct (Nat.eqb_spec (k_total k) 0) as [Z|Z]; [|destruct (Nat.leb_spec (k_total k) (k_recv k + length (firstn n (k_down k)))) as [L|L]]; injection H as <- <-; unfold work, todo_work; cbn [with_link q_links q_todo q_run q_len q_num];
      (match goal with |- sum (map left_of (set_at i ?x _)) + _ + _ < _ => assert (Q := sum_set (q_links s) i k x E); assert (B : left_of x < left_of k) end; [|lia]);
      unfold left_of; cbn [k_out k_up k_srv k_down k_total k_recv]; rewrite ?app_length, skipn_length, ?LF in *; lia.
Qed.
Lemma work_run c l : forall s s1 e, forallb (fun a => negb (starts a)) l = true -> prun c s l = Some (s1, e) -> length l + work s1 <= work s.
Proof.
  induction l as [|a l IH]; intros s s1 e A H; cbn [prun] in H; [injection H as <- _; cbn; lia|]. cbn [forallb] in A. apply andb_prop in A as (A1 & A2). apply negb_true_iff in A1.
  destruct (pstep c s a) as [(s2, e2)|] eqn:ST; [|discriminate H]. destruct (prun c s2 l) as [(s3, e3)|] eqn:R; [|discriminate H]. injection H as <- _. assert (Q := IH s2 s3 e3 A2 R). assert (P := work_step c s a s2 e2 A1 ST). cbn [length]. lia.
Qed.
Lemma goes_on c s t : J Nat.eqb c s t -> K c s -> 1 <= p_bufsz c -> q_run s = true -> exists a s1 e, starts a = false /\ pstep c s a = Some (s1, e).
Proof.
  intros [J1 J2 J3 (m & M1 & M2 & M3 & M4 & M5 & M6)] HK HB R. destruct (J3 R) as (_ & P2 & P3). destruct (Nat.eq_dec m (p_links c)) as [Q|Q].
  - subst m. rewrite Nat.sub_diag in *. cbn [seq plus] in *. destruct (Nat.eq_dec (busies (q_links s)) 0) as [B|B].
    + exists TEnd. do 2 eexists. split; [reflexivity|]. cbn [pstep]. rewrite R, M4, B, M2. reflexivity.
    + destruct (busies_some _ B) as (i & k & E & Z). destruct (HK i k E) as (_ & L). specialize (L Z). rewrite on_len in L.
      destruct (Nat.eq_dec (length (k_out k)) 0) as [O1|O1]; [destruct (Nat.eq_dec (length (k_up k)) 0) as [O2|O2]; [destruct (Nat.eq_dec (length (k_srv k)) 0) as [O3|O3]|]|].
      * exists (CRead i 1). cbn [pstep starts]. rewrite E. destruct (Nat.leb_spec 1 (length (k_down k))) as [G|G]; [|lia]. destruct (Nat.leb_spec 1 (p_bufsz c)) as [G'|G']; [|lia]. cbn [Nat.leb andb]. destruct (handle k (skipn 1 (k_down k)) (firstn 1 (k_down k))) as (k1, o). destruct o; do 2 eexists; split; reflexivity.
      * exists (SWrite i 1). cbn [pstep starts]. rewrite E. destruct (Nat.leb_spec 1 (length (k_srv k))) as [G|G]; [|lia]. cbn [Nat.leb andb]. do 2 eexists. split; reflexivity.
      * exists (SRead i 1). cbn [pstep starts]. rewrite E. destruct (Nat.leb_spec 1 (length (k_up k))) as [G|G]; [|lia]. destruct (Nat.leb_spec 1 (p_bufsz c)) as [G'|G']; [|lia]. cbn [Nat.leb andb]. destruct (length (k_srv k) <? p_limit c); do 2 eexists; split; reflexivity.
      * exists (CWrite i 1). cbn [pstep starts]. rewrite E. destruct (Nat.leb_spec 1 (length (k_out k))) as [G|G]; [|lia]. cbn [Nat.leb andb]. do 2 eexists. split; reflexivity.
  - exists TBegin. cbn [pstep starts]. replace (p_links c - m) with (S (p_links c - S m)) in M2 by lia. rewrite M2. cbn [seq]. destruct (nth_error (q_links s) m) as [k|] eqn:E; [|apply nth_error_None in E; lia]. do 2 eexists. split; reflexivity.
Qed.
Lemma open_app b x y : open_test b (x ++ y) = open_test (open_test b x) y.
Proof. revert b. induction x as [|e x IH]; intros b; [reflexivity|]. destruct e; cbn [app open_test]; apply IH. Qed.
Lemma open_step c s a s1 e : pstep c s a = Some (s1, e) -> open_test (q_run s) e = q_run s1.
Proof.
  intros H. destruct a as [num len| | |i n|i n|i n|i n]; cbn [pstep] in H.
  - destruct (_ && _); [|discriminate H]. injection H as <- <-. reflexivity.
  - destruct (q_todo s); [discriminate H|]. destruct (nth_error _ _); [|discriminate H]. injection H as <- <-. destruct (_ <? _); reflexivity.
  - destruct (_ && _); [|discriminate H]. injection H as <- <-. reflexivity.
  - destruct (nth_error _ _); [|discriminate H]. destruct (_ && _); [|discriminate H]. injection H as <- <-. reflexivity.
  - destruct (nth_error _ _); [|discriminate H]. destruct (_ && _); [|discriminate H]. destruct (_ <? _); injection H as <- <-; reflexivity.
  - destruct (nth_error _ _); [|discriminate H]. destruct (_ && _); [|discriminate H]. injection H as <- <-. reflexivity.
  - destruct (nth_error _ _); [|discriminate H]. destruct (_ && _); [|discriminate H]. destruct (handle _ _ _) as (k1, o). destruct o; injection H as <- <-; reflexivity.
Qed.
Lemma open_run c l : forall s s1 e, prun c s l = Some (s1, e) -> open_test (q_run s) e = q_run s1.
Proof.
  induction l as [|a l IH]; intros s s1 e H; cbn [prun] in H; [injection H as <- <-; reflexivity|]. destruct (pstep c s a) as [(s2, e2)|] eqn:ST; [|discriminate H]. destruct (prun c s2 l) as [(s3, e3)|] eqn:R; [|discriminate H]. injection H as <- <-.
  rewrite open_app, (open_step c s a s2 e2 ST). exact (IH s2 s3 e3 R).
Qed.
(** English: a test that was started ends: after at most [bound] steps nothing more can happen, and when nothing can happen any more its end has been
    reported. *)
Theorem C145_ends : forall c l s t, (N.of_nat (p_links c) < 65536)%N -> p_bufsz c <= p_limit c -> quiet c (p0 c) l -> prun c (p0 c) l = Some (s, t) ->
  exists bound, forall l2 s2 t2, forallb (fun a => negb (starts a)) l2 = true -> quiet c s l2 -> prun c s l2 = Some (s2, t2) ->
    length l2 <= bound /\ ((forall a, starts a = false -> pstep c s2 a = None) -> open_test false (t ++ t2) = false).
Proof.
  intros c l s t HN HL HQ H. exists (work s). intros l2 s2 t2 A Q2 H2. split; [assert (W := work_run c l2 s s2 t2 A H2); lia|]. intros ST.
  destruct (K_run c l HN HL (p0 c) [] s t (J_init Nat.eqb c) (K_init c) HQ H) as (J1 & K1 & _). destruct (K_run c l2 HN HL s ([] ++ t) s2 t2 J1 K1 Q2 H2) as (J2 & K2 & _).
  rewrite open_app. change false with (q_run (p0 c)) at 1. rewrite (open_run c l _ s t H), (open_run c l2 s s2 t2 H2). destruct (q_run s2) eqn:R; [|reflexivity]. exfalso. assert (B : 1 <= p_bufsz c) by (destruct (j_par _ _ _ _ J2 R) as (_ & _ & B); lia).
  destruct (goes_on c s2 _ J2 K2 B R) as (a & s3 & e3 & S0 & X). rewrite (ST a S0) in X. discriminate X.
Qed.
Print Assumptions C145_ends.
Example C145_ends_example : exists s t, prun ex_c (p0 ex_c) (firstn 10 ex_l) = Some (s, t) /\ q_run s = true /\ q_done s = 2%N /\
  exists s2 t2, prun ex_c s (skipn 10 ex_l) = Some (s2, t2) /\ q_run s2 = false /\ last t2 (EDone 9) = EFinished.
Proof. do 2 eexists. split; [vm_compute; reflexivity|]. split; [reflexivity|]. split; [reflexivity|]. do 2 eexists. split; [vm_compute; reflexivity|]. split; reflexivity. Qed.
