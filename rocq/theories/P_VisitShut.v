(** C146: force_shutdown() of a server ends the links it visits. *)
From Coq Require Import List Arith Bool Lia.
From Verif Require Import M_Visit S_Visit S_VisitShut P_Visit.
Import ListNotations.

Fixpoint sum {A} (f : A -> nat) (l : list A) : nat := match l with [] => 0 | a :: r => f a + sum f r end.
Lemma sum_app {A} (f : A -> nat) a b : sum f (a ++ b) = sum f a + sum f b.
Proof. induction a as [|x a IH]; [reflexivity|]. cbn [app sum]. lia. Qed.
Lemma sum_set {A} (f : A -> nat) l : forall k x y, nth_error l k = Some y -> sum f (set_nth k x l) + f y = sum f l + f x.
Proof. induction l as [|a l IH]; intros [|k] x y H; try discriminate H; cbn [set_nth sum]; [injection H as ->; lia|]. assert (Q := IH k x y H). lia. Qed.
Lemma sum_del {A} (f : A -> nat) l : forall k y, nth_error l k = Some y -> sum f (del_nth k l) + f y = sum f l.
Proof. induction l as [|a l IH]; intros [|k] y H; try discriminate H; cbn [del_nth sum]; [injection H as ->; lia|]. assert (Q := IH k y H). lia. Qed.

Definition one (i j : nat) : nat := if j =? i then 1 else 0.
Definition w_start (i : nat) (o : option op) : nat := match o with Some (WStart j) => one i j | _ => 0 end.
Definition w_del (i : nat) (o : option op) : nat := match o with Some (WDel j) => one i j | _ => 0 end.
Definition w_shut (i : nat) (o : option op) : nat := match o with Some (WShut j) => one i j | _ => 0 end.
Definition h_close (i : nat) (h : hnd) : nat := match h with HClose j => one i j | _ => 0 end.
Definition h_shut (i : nat) (h : hnd) : nat := match h with HShut j => one i j | _ => 0 end.
Definition b2n (b : bool) : nat := if b then 1 else 0.
Definition pooled (i : nat) (s : st) : nat := b2n (existsb (Nat.eqb i) (s_pool s)).
Definition ups (i : nat) (s : st) : nat := b2n (l_up (s_link s i)).
Definition starting (i : nat) (s : st) : nat := sum (w_start i) (s_thr s).
Definition ending (i : nat) (s : st) : nat := sum (w_del i) (s_thr s) + sum (h_close i) (s_pend s).
Definition shutting (i : nat) (s : st) : nat := sum (w_shut i) (s_thr s) + sum (h_shut i) (s_pend s).
Section Early.
Variable early : bool.
(** exactly one of: about to be started, up, about to be removed - as long as it is in the pool *)
Definition V (i : nat) (s : st) (t : list ev) : Prop :=
  starting i s + ups i s + ending i s = pooled i s /\
  match life early i t with
  | POut => pooled i s = 0
  | PNew a => starting i s = 1 /\ (a = true -> early = true /\ 1 <= shutting i s)
  | PUp a => ups i s = 1 /\ (a = true -> 1 <= shutting i s)
  | PDown => ending i s = 1
  | PWrong => False
  end.
Ltac fin B := try lia; (let B1 := fresh in let B2 := fresh in let Q := fresh in destruct B as (B1 & B2); (split; [lia|]); intros Q; specialize (B2 Q); try (destruct B2 as (? & B2); split; [assumption|]); lia).
Lemma life_app i t e : life early i (t ++ e) = fold_left (lstep early i) e (life early i t).
Proof. apply fold_left_app. Qed.
Lemma life_wire i j ms p : fold_left (lstep early i) (wire j ms) p = p.
Proof. destruct ms; reflexivity. Qed.
(** nothing about link [i] changes, except that more shutdowns may wait *)
Lemma V_same i s s1 t e : V i s t -> fold_left (lstep early i) e (life early i t) = life early i t -> starting i s1 = starting i s -> ups i s1 = ups i s -> ending i s1 = ending i s -> pooled i s1 = pooled i s -> shutting i s <= shutting i s1 -> V i s1 (t ++ e).
Proof.
  intros (A & B) E1 E2 E3 E4 E5 E6. unfold V. rewrite life_app, E1, E2, E3, E4, E5. split; [exact A|]. destruct (life early i t); fin B.
Qed.
Lemma ups_put i s j l more : ups i (put s j l more) = if i =? j then b2n (l_up l) else ups i s.
Proof. unfold ups. cbn [put s_link]. unfold upd. destruct (i =? j); reflexivity. Qed.
Lemma ups_keep i s j l more : l_up l = l_up (s_link s j) -> ups i (put s j l more) = ups i s.
Proof. intros H. rewrite ups_put. destruct (Nat.eqb_spec i j) as [->|N]; [rewrite H; reflexivity|reflexivity]. Qed.
Lemma ending_put i s j l more : ending i (put s j l more) = ending i s + sum (h_close i) more.
Proof. unfold ending. cbn [put s_thr s_pend]. rewrite sum_app. lia. Qed.
Lemma shutting_put i s j l more : shutting i (put s j l more) = shutting i s + sum (h_shut i) more.
Proof. unfold shutting. cbn [put s_thr s_pend]. rewrite sum_app. lia. Qed.
(** the link [j] gets a new record and handlers that are not about its end *)
Lemma V_put i s t e j l more : V i s t -> l_up l = l_up (s_link s j) -> fold_left (lstep early i) e (life early i t) = life early i t -> sum (h_close i) more = 0 -> V i (put s j l more) (t ++ e).
Proof.
  intros H U E M. apply (V_same i s); [exact H|exact E|reflexivity|exact (ups_keep i s j l more U)|rewrite ending_put, M; lia|reflexivity|rewrite shutting_put; lia].
Qed.
Lemma V_app i s t e a lk : V i s t -> fold_left (lstep early i) e (life early i t) = life early i t -> V i (mk_st lk a (s_pool s) (s_link s) (s_pend s) (s_thr s)) (t ++ e).
Proof. intros H E. apply (V_same i s); try assumption; reflexivity || apply le_n. Qed.
Lemma V_shut i s t j s1 e : V i s t -> shut s j = (s1, e) -> V i s1 (t ++ e) /\ (1 <= ups j s -> ups j s1 = 0) .
Proof.
  intros H D. unfold shut in D. destruct (l_up (s_link s j)) eqn:U; injection D as <- <-.
  - split; [|intros _; unfold ups; cbn [put s_link]; rewrite upd_eq; reflexivity]. destruct (Nat.eq_dec j i) as [->|N].
    + destruct H as (A & B). unfold V. rewrite life_app. cbn [fold_left lstep]. rewrite Nat.eqb_refl. assert (U1 : ups i s = 1) by (unfold ups; rewrite U; reflexivity).
      assert (P1 : pooled i s <= 1) by (unfold pooled, b2n; destruct (existsb _ _); lia).
      change (starting i (put s i _ _)) with (starting i s). change (pooled i (put s i _ _)) with (pooled i s). rewrite ups_put, ending_put, Nat.eqb_refl. cbn [l_up b2n sum h_close]. unfold one. rewrite Nat.eqb_refl.
      destruct (life early i t); try (destruct B as (B & _)); try (exfalso; lia). split; lia.
    + apply (V_same i s); [exact H| |reflexivity| | |reflexivity|].
      * cbn [fold_left lstep]. destruct (Nat.eqb_spec j i); [contradiction|reflexivity].
      * rewrite ups_put. destruct (Nat.eqb_spec i j); [congruence|reflexivity].
      * rewrite ending_put. cbn [sum h_close]. unfold one. destruct (Nat.eqb_spec j i); [contradiction|lia].
      * rewrite shutting_put. lia.
  - rewrite app_nil_r. split; [exact H|]. unfold ups. rewrite U. cbn. lia.
Qed.
(** a service thread goes from [o'] to [o] *)
Lemma thr_starting i s w o o' : nth_error (s_thr s) w = Some o' -> starting i (with_thr s w o) + w_start i o' = starting i s + w_start i o.
Proof. intros H. exact (sum_set (w_start i) (s_thr s) w o o' H). Qed.
Lemma thr_ending i s w o o' : nth_error (s_thr s) w = Some o' -> ending i (with_thr s w o) + w_del i o' = ending i s + w_del i o.
Proof. intros H. unfold ending. cbn [with_thr s_thr s_pend]. assert (Q := sum_set (w_del i) (s_thr s) w o o' H). lia. Qed.
Lemma thr_shutting i s w o o' : nth_error (s_thr s) w = Some o' -> shutting i (with_thr s w o) + w_shut i o' = shutting i s + w_shut i o.
Proof. intros H. unfold shutting. cbn [with_thr s_thr s_pend]. assert (Q := sum_set (w_shut i) (s_thr s) w o o' H). lia. Qed.
Lemma V_thr i s t w o o' : V i s t -> nth_error (s_thr s) w = Some o' -> w_start i o = w_start i o' -> w_del i o = w_del i o' -> (w_shut i o' = 0 \/ ups i s = 0 /\ (early = true -> starting i s = 0)) -> V i (with_thr s w o) t.
Proof.
  intros (A & B) H E1 E2 E3. assert (Q1 := thr_starting i s w o o' H). assert (Q2 := thr_ending i s w o o' H). assert (Q3 := thr_shutting i s w o o' H). unfold V. change (ups i (with_thr s w o)) with (ups i s). change (pooled i (with_thr s w o)) with (pooled i s).
  split; [lia|]. destruct (life early i t); try lia; destruct B as (B1 & B2); (split; [lia|]); intros Q; specialize (B2 Q); try (destruct B2 as (BE & B2); split; [exact BE|]; specialize (fun E3 : ups i s = 0 /\ (early = true -> starting i s = 0) => proj2 E3 BE) as E4; destruct E3 as [E3|E3]; [lia|specialize (E4 E3); lia]); destruct E3 as [E3|(E3 & _)]; lia.
Qed.
(** a handler is taken from the waiting ones *)
Definition take (s : st) (k : nat) : st := mk_st (s_lock s) (s_app s) (s_pool s) (s_link s) (del_nth k (s_pend s)) (s_thr s).
Lemma take_ending i s k h : nth_error (s_pend s) k = Some h -> ending i (take s k) + h_close i h = ending i s.
Proof. intros H. unfold ending. cbn [take s_thr s_pend]. assert (Q := sum_del (h_close i) (s_pend s) k h H). lia. Qed.
Lemma take_shutting i s k h : nth_error (s_pend s) k = Some h -> shutting i (take s k) + h_shut i h = shutting i s.
Proof. intros H. unfold shutting. cbn [take s_thr s_pend]. assert (Q := sum_del (h_shut i) (s_pend s) k h H). lia. Qed.
Lemma V_take i s t k h : V i s t -> nth_error (s_pend s) k = Some h -> h_close i h = 0 -> h_shut i h = 0 -> V i (take s k) t.
Proof.
  intros H N E1 E2. rewrite <- (app_nil_r t). assert (Q1 := take_ending i s k h N). assert (Q2 := take_shutting i s k h N). apply (V_same i s); try exact H; try reflexivity; lia.
Qed.
(** a handler is taken and its thread goes on with it *)
Lemma V_take_thr i s t k h w o : V i s t -> nth_error (s_pend s) k = Some h -> nth_error (s_thr s) w = Some None -> w_start i o = 0 -> w_del i o = h_close i h -> w_shut i o = h_shut i h -> V i (with_thr (take s k) w o) t.
Proof.
  intros H N W E1 E2 E3. rewrite <- (app_nil_r t). assert (Q1 := take_ending i s k h N). assert (Q2 := take_shutting i s k h N).
  assert (R1 := thr_starting i (take s k) w o None W). assert (R2 := thr_ending i (take s k) w o None W). assert (R3 := thr_shutting i (take s k) w o None W). cbn [w_start w_del w_shut] in *. change (starting i (take s k)) with (starting i s) in R1.
  apply (V_same i s); try exact H; try reflexivity; lia.
Qed.
Lemma in_pool_app i s l : existsb (Nat.eqb i) (s_pool s ++ l) = existsb (Nat.eqb i) (s_pool s) || existsb (Nat.eqb i) l.
Proof. apply existsb_app. Qed.
Lemma pool_filter i j l : existsb (Nat.eqb i) (filter (fun x => negb (x =? j)) l) = negb (i =? j) && existsb (Nat.eqb i) l.
Proof.
  induction l as [|a l IH]; [rewrite andb_false_r; reflexivity|]. cbn [filter existsb]. destruct (Nat.eqb_spec a j) as [->|N]; cbn [negb existsb]; rewrite ?IH.
  - destruct (Nat.eqb_spec i j); cbn; reflexivity.
  - destruct (Nat.eqb_spec i a) as [->|M]; cbn; [|reflexivity]. destruct (Nat.eqb_spec a j); [contradiction|reflexivity].
Qed.
Lemma V_step c i : forall s t a s' e, V i s t -> (early = true -> c_inline c = false /\ length (s_thr s) <= 1) -> step c s a = Some (s', e) -> V i s' (t ++ e).
Proof.
  intros s t a s' e H EA D. assert (P1 : pooled i s <= 1) by (unfold pooled, b2n; destruct (existsb _ _); lia). destruct a as [f| | |w k|w|j|j|j]; cbn [step] in D.
  - destruct (s_app s); try discriminate D. injection D as <- <-. exact (V_app i s t [] _ _ H eq_refl).
  - destruct (s_app s) as [|f| |]; try discriminate D. destruct (s_lock s); [discriminate D|]. injection D as <- <-. (apply V_app; [exact H|reflexivity]).
  - destruct (s_app s) as [| |f l|]; try discriminate D. destruct l as [|j r]; [injection D as <- <-; (apply V_app; [exact H|reflexivity])|]. unfold visit in D. destruct f as [|sf ov m|asks].
    + destruct (c_inline c).
      * destruct (l_starting (s_link s j)); [injection D as <- <-; rewrite app_nil_r; exact H|]. destruct (shut s j) as (s1, e1) eqn:S. injection D as <- <-.
        assert (H2 : V i s1 (t ++ EVisit j RShut :: e1)).
        { destruct (V_shut i s t j s1 e1 H S) as (V1 & Z). destruct (Nat.eq_dec j i) as [->|N].
          - unfold shut in S. destruct (l_up (s_link s i)) eqn:U; injection S as <- <-.
            + destruct V1 as (A & B). unfold V. split; [exact A|]. rewrite !life_app in *. cbn [fold_left lstep] in *. rewrite Nat.eqb_refl in *. destruct (life early i t); exact B.
            + destruct H as (A & B). split; [exact A|]. rewrite life_app. cbn [fold_left lstep]. rewrite Nat.eqb_refl. destruct (life early i t) as [|a|a| |]; try exact B; [|destruct B as (B & _); unfold ups in B; rewrite U in B; discriminate B]. destruct early; [destruct (EA eq_refl) as (EA1 & _); congruence|exact B].
          - destruct V1 as (A & B). split; [exact A|]. rewrite !life_app in *. cbn [fold_left lstep]. destruct (Nat.eqb_spec j i); [contradiction|]. exact B. }
        rewrite <- (app_nil_r (t ++ _)). exact (V_app i s1 _ [] _ _ H2 eq_refl).
      * injection D as <- <-. destruct H as (A & B). unfold V. change (starting i (with_app (put s j (s_link s j) [HShut j]) (Visit CShut r))) with (starting i s). change (pooled i (with_app _ _)) with (pooled i s).
        change (ups i (with_app ?x _)) with (ups i x). change (ending i (with_app ?x _)) with (ending i x). change (shutting i (with_app ?x _)) with (shutting i x).
        rewrite ups_keep by reflexivity. rewrite ending_put, shutting_put, life_app. cbn [sum h_close h_shut fold_left lstep]. split; [lia|]. unfold one. destruct (j =? i).
        -- destruct (life early i t) as [|a|a| |]; try lia; destruct B as (B1 & B2); (split; [exact B1|]); intros Q. split; [|lia]. destruct early; [reflexivity|]. exact (proj1 (B2 Q)).
        -- destruct (life early i t); fin B.
    + destruct (ov || (length (l_buf (s_link s j)) <? c_limit c)).
      * injection D as <- <-. assert (H2 : V i (put s j (enqueue (s_link s j) m) (starts_sending (s_link s j) j)) (t ++ [EVisit j (RQueued m)])) by (apply V_put; [exact H|reflexivity|reflexivity|unfold starts_sending; destruct (_ && _); reflexivity]).
        rewrite <- (app_nil_r (t ++ _)). exact (V_app i _ _ [] _ _ H2 eq_refl).
      * destruct (sf && l_up (s_link s j)); injection D as <- <-; [rewrite app_nil_r; exact H|]. (apply V_app; [exact H|reflexivity]).
    + destruct asks; injection D as <- <-; (apply V_app; [exact H|reflexivity]).
  - destruct (nth_error (s_thr s) w) as [[o|]|] eqn:W; try discriminate D. destruct (nth_error (s_pend s) k) as [h|] eqn:K; [|discriminate D]. fold (take s k) in D. destruct h as [j|j|j|j|j].
    + assert (H2 := V_take i s t k _ H K eq_refl eq_refl). destruct (l_sending (s_link s j)); [injection D as <- <-; rewrite app_nil_r; exact H2|]. destruct (do_send (s_link s j)) as (l', ms) eqn:E. injection D as <- <-.
      apply V_put; [exact H2|exact (proj2 (proj2 (proj2 (do_send_sends _ _ _ E))))|apply life_wire|reflexivity].
    + assert (H2 := V_take i s t k _ H K eq_refl eq_refl). destruct (l_up (s_link s j)) eqn:U.
      * destruct (do_send (s_link s j)) as (l', ms) eqn:E. injection D as <- <-. apply V_put; [exact H2|exact (proj2 (proj2 (proj2 (do_send_sends _ _ _ E))))|apply life_wire|reflexivity].
      * injection D as <- <-. apply V_put; [exact H2|cbn [l_up take s_link]; symmetry; exact U|reflexivity|reflexivity].
    + injection D as <- <-. rewrite app_nil_r. apply (V_take_thr i s t k _ w _ H K W); reflexivity.
    + injection D as <- <-. rewrite app_nil_r. apply (V_take_thr i s t k _ w _ H K W); reflexivity.
    + injection D as <- <-. rewrite app_nil_r. apply (V_take_thr i s t k _ w _ H K W); reflexivity.
  - destruct (nth_error (s_thr s) w) as [[[j|j|j|j|j]|]|] eqn:W; try discriminate D.
    + destruct (s_lock s); [discriminate D|]. destruct (existsb (Nat.eqb j) (s_pool s)) eqn:X; injection D as <- <-.
      * rewrite app_nil_r. exact (V_thr i s t w None _ H W eq_refl eq_refl (or_introl eq_refl)).
      * set (s1 := mk_st _ _ _ _ _ _). assert (Q1 := thr_starting i s1 w (Some (WStart j)) _ W). assert (Q2 := thr_ending i s1 w (Some (WStart j)) _ W). assert (Q3 := thr_shutting i s1 w (Some (WStart j)) _ W). cbn [w_start w_del w_shut] in *.
        change (starting i s1) with (starting i s) in Q1. change (ending i s1) with (ending i s) in Q2. change (shutting i s1) with (shutting i s) in Q3.
        destruct H as (A & B). unfold V. change (ups i (with_thr s1 w _)) with (ups i s1). change (pooled i (with_thr s1 w _)) with (pooled i s1). unfold one in Q1. rewrite life_app. cbn [fold_left lstep].
        assert (PO : pooled i s1 = if j =? i then 1 else pooled i s) by (unfold pooled; cbn [s1 s_pool]; rewrite existsb_app; cbn [existsb]; rewrite orb_false_r, (Nat.eqb_sym i j); destruct (j =? i); rewrite ?orb_true_r, ?orb_false_r; reflexivity).
        assert (UP : ups i s1 = if j =? i then 0 else ups i s) by (unfold ups; cbn [s1 s_link]; unfold upd; rewrite (Nat.eqb_sym i j); destruct (j =? i); reflexivity).
        destruct (Nat.eqb_spec j i) as [->|N].
        -- assert (PZ : pooled i s = 0) by (unfold pooled; rewrite X; reflexivity). split; [lia|]. destruct (life early i t); lia.
        -- split; [lia|]. destruct (life early i t); fin B.
    + injection D as <- <-. set (l1 := mk_link _ _ _ _ _). set (s1 := put s j l1 []). assert (Q1 := thr_starting i s1 w (Some (WConnect j)) _ W). assert (Q2 := thr_ending i s1 w (Some (WConnect j)) _ W). assert (Q3 := thr_shutting i s1 w (Some (WConnect j)) _ W). cbn [w_start w_del w_shut] in *.
      change (starting i s1) with (starting i s) in Q1. unfold s1 in Q2, Q3. rewrite ending_put in Q2. rewrite shutting_put in Q3. fold s1 in Q2, Q3. cbn [sum] in Q2, Q3. unfold one in Q1.
      destruct H as (A & B). unfold V. change (ups i (with_thr s1 w _)) with (ups i s1). change (pooled i (with_thr s1 w _)) with (pooled i s). assert (UP : ups i s1 = if j =? i then 1 else ups i s) by (unfold s1; rewrite ups_put, (Nat.eqb_sym i j); reflexivity).
      rewrite life_app. cbn [fold_left lstep]. destruct (Nat.eqb_spec j i) as [->|N].
      * destruct (life early i t); try (exfalso; lia). destruct B as (B & B2). split; [lia|]. split; [exact UP|]. intros Q. destruct (B2 Q) as (_ & B3). lia.
      * split; [lia|]. destruct (life early i t); fin B.
    + destruct (c_asks c && s_lock s); [discriminate D|]. injection D as <- <-. set (l1 := mk_link _ _ _ _ _).
      assert (H2 : V i (put s j l1 (starts_sending (s_link s j) j)) (t ++ [])) by (apply V_put; [exact H|reflexivity|reflexivity|unfold starts_sending; destruct (_ && _); reflexivity]).
      exact (V_thr i _ _ w None _ H2 W eq_refl eq_refl (or_introl eq_refl)).
    + destruct (l_starting (s_link s j)); [discriminate D|]. destruct (shut s j) as (s1, e1) eqn:S. injection D as <- <-. destruct (V_shut i s t j s1 e1 H S) as (V1 & Z). assert (W1 : nth_error (s_thr s1) w = Some (Some (WShut j))) by (unfold shut in S; destruct (l_up _); injection S as <- _; exact W).
      apply (V_thr i s1 _ w None _ V1 W1 eq_refl eq_refl). cbn [w_shut]. unfold one. destruct (Nat.eqb_spec j i) as [->|N]; [|left; reflexivity]. right. split; [|intros QE; destruct (EA QE) as (_ & QL); replace (starting i s1) with (starting i s) by (unfold shut in S; destruct (l_up _); injection S as <- _; reflexivity); unfold starting; destruct (s_thr s) as [|o [|o2 r]]; [reflexivity| |cbn [length] in QL; lia]; destruct w as [|w]; [injection W as ->; reflexivity|destruct w; discriminate W]]. unfold shut in S. destruct (l_up (s_link s i)) eqn:U; injection S as <- <-.
      * apply Z. unfold ups. rewrite U. apply le_n.
      * unfold ups. rewrite U. reflexivity.
    + destruct (s_lock s); [discriminate D|]. injection D as <- <-. set (s1 := mk_st _ _ _ _ _ _). assert (Q1 := thr_starting i s1 w None _ W). assert (Q2 := thr_ending i s1 w None _ W). assert (Q3 := thr_shutting i s1 w None _ W). cbn [w_start w_del w_shut] in *.
      change (starting i s1) with (starting i s) in Q1. change (ending i s1) with (ending i s) in Q2. change (shutting i s1) with (shutting i s) in Q3. unfold one in Q2.
      destruct H as (A & B). unfold V. change (ups i (with_thr s1 w _)) with (ups i s). change (pooled i (with_thr s1 w _)) with (pooled i s1).
      assert (PO : pooled i s1 = if j =? i then 0 else pooled i s) by (unfold pooled; cbn [s1 s_pool]; rewrite pool_filter, (Nat.eqb_sym i j); destruct (j =? i); reflexivity).
      destruct (Nat.eqb_spec j i) as [->|N].
      * assert (PY : pooled i s = 1) by lia. assert (X : existsb (Nat.eqb i) (s_pool s) = true) by (unfold pooled in PY; destruct (existsb _ _); [reflexivity|discriminate PY]). rewrite X, life_app. cbn [fold_left lstep]. rewrite Nat.eqb_refl.
        split; [lia|]. destruct (life early i t); try (destruct B as (B & _)); try (exfalso; lia). lia.
      * rewrite life_app. assert (LE : fold_left (lstep early i) (if existsb (Nat.eqb j) (s_pool s) then [EDel j] else []) (life early i t) = life early i t) by (destruct (existsb _ _); [|reflexivity]; cbn [fold_left lstep]; destruct (Nat.eqb_spec j i); [contradiction|reflexivity]).
        rewrite LE. split; [lia|]. destruct (life early i t); fin B.
  - destruct (l_writing (s_link s j)); [|discriminate D]. injection D as <- <-. apply V_put; [exact H|reflexivity|reflexivity|reflexivity].
  - destruct (l_up (s_link s j) && negb (l_starting (s_link s j))); [|discriminate D]. injection D as <- <-. apply V_put; [exact H|reflexivity|reflexivity|reflexivity].
  - injection D as <- <-. apply (V_same i s); try exact H; try reflexivity; unfold ending, shutting; cbn [s_thr s_pend]; rewrite sum_app; cbn [sum h_close h_shut]; lia.
Qed.
End Early.
Lemma V_init i c_early n : V c_early i (init n) [].
Proof.
  unfold V, life, pooled, ups, starting, ending. cbn [fold_left init s_pool s_link s_thr s_pend existsb b2n link0 l_up sum]. split; [|reflexivity]. induction n as [|n IH]; [reflexivity|]. cbn [repeat sum w_start w_del]. exact IH.
Qed.
Lemma thr_len c s a s' e : step c s a = Some (s', e) -> length (s_thr s') = length (s_thr s).
Proof.
  assert (SL : forall (l : list (option op)) w o, length (set_nth w o l) = length l) by (induction l as [|x l IH]; intros [|w] o; cbn; auto).
  intros D. destruct a as [f| | |w k|w|j|j|j]; [cases D; reflexivity|cases D; reflexivity| | | |cases D; reflexivity|cases D; reflexivity|cases D; reflexivity].
  - unfold step in D. destruct (s_app s) as [| |f l|]; try discriminate D. destruct l as [|j r]; [injection D as <- _; reflexivity|]. destruct (visit c s f j) as [[[[s1 e1] x]|]|] eqn:VI; injection D as <- _; try reflexivity.
    cbn [with_app s_thr]. rewrite (proj1 (proj2 (proj2 (proj2 (visit_ok _ _ _ _ _ _ _ VI))))). reflexivity.
  - unfold step in D. destruct (nth_error (s_thr s) w) as [[o|]|]; try discriminate D. destruct (nth_error (s_pend s) k) as [h|]; [|discriminate D].
    destruct h as [j|j|j|j|j]; [destruct (l_sending _)|destruct (l_up _)| | |]; try (destruct (do_send _)); injection D as <- _; cbn [with_thr put s_thr]; rewrite ?SL; reflexivity.
  - unfold step in D. destruct (nth_error (s_thr s) w) as [[[j|j|j|j|j]|]|]; try discriminate D.
    + destruct (s_lock s); [discriminate D|]. destruct (existsb _ _); injection D as <- _; cbn [with_thr s_thr]; rewrite SL; reflexivity.
    + injection D as <- _; cbn [with_thr s_thr put]; rewrite SL; reflexivity.
    + destruct (_ && _); [discriminate D|]. injection D as <- _; cbn [with_thr s_thr put]; rewrite SL; reflexivity.
    + destruct (l_starting _); [discriminate D|]. destruct (shut s j) as (s1, e1) eqn:S. injection D as <- _. cbn [with_thr s_thr]. rewrite SL, (proj1 (proj2 (proj2 (proj2 (shut_ok _ _ _ _ S))))). reflexivity.
    + destruct (s_lock s); [discriminate D|]. injection D as <- _; cbn [with_thr s_thr]; rewrite SL; reflexivity.
Qed.
Lemma V_reach early c n i : (early = true -> c_inline c = false /\ n <= 1) -> forall l s t, run c (init n) l = Some (s, t) -> V early i s t.
Proof.
  intros EA l s t R. apply (run_inv c (fun s t => V early i s t /\ length (s_thr s) = n) (fun _ => true)) with (l := l) (s := init n) (t := []) (t' := t); [|split; [apply V_init|apply repeat_length]|apply all_ok|exact R].
  intros s0 t0 a s' e (H & L) _ D. split; [|rewrite (thr_len c s0 a s' e D); exact L]. apply (V_step early c i s0 t0 a s' e H); [|exact D]. intros Q. rewrite L. exact (EA Q).
Qed.

(** English: a link is added to the pool, then connected, then shut down, then removed from the pool, each once. *)
Theorem C146_life : forall c n l s t i, run c (init n) l = Some (s, t) -> life false i t <> PWrong.
Proof. intros c n l s t i R Q. destruct (V_reach false c n i (fun E => False_ind _ (Bool.diff_false_true E)) l s t R) as (_ & B). rewrite Q in B. exact B. Qed.
Print Assumptions C146_life.

(** English: every link that force_shutdown() or disconnect() of a server visited (after it was added to the pool) is shut down when everything
    that was started has ended. *)
Definition C146_statement : Prop := forall c n l s t i, run c (init n) l = Some (s, t) -> settled s -> life true i t <> PNew true /\ life true i t <> PUp true.

Lemma settled_none s i : settled s -> shutting i s = 0 /\ starting i s = 0.
Proof.
  intros (P & T). unfold shutting, starting. rewrite P. cbn [sum]. revert T. induction (s_thr s) as [|o r IH]; intros T; [split; reflexivity|]. rewrite (T o (or_introl eq_refl)). cbn [sum w_shut w_start]. apply IH. intros x X. apply T. right. exact X.
Qed.
(** it holds of links that were connected when they were visited, and of all if there is one service thread, which is not the visiting one *)
Theorem C146_partial : forall c n l s t i early, (early = true -> c_inline c = false /\ n <= 1) -> run c (init n) l = Some (s, t) -> settled s -> life early i t <> PNew true /\ life early i t <> PUp true.
Proof.
  intros c n l s t i early EA R ST. destruct (V_reach early c n i EA l s t R) as (_ & B). destruct (settled_none s i ST) as (Z & Z2).
  split; intros Q; rewrite Q in B; destruct B as (B1 & B2); [lia|]. specialize (B2 eq_refl). lia.
Qed.
Print Assumptions C146_partial.
Definition l_shut : list act := [PConnect 7; SPick 0 0; SGo 0; SGo 0; ACall CShut; ALock; AStep; AStep; SGo 0; SPick 0 0; SGo 0; SPick 0 0; SPick 0 0; SGo 0].
Example C146_example : exists s t, run (mk_cfg 1 false false) (init 1) l_shut = Some (s, t) /\ settled s /\ t = [EAdd 7; EUp 7; EBegin CShut; EVisit 7 RShut; EReturn; EDown 7; EDel 7] /\
  life false 7 (firstn 5 t) = PUp true /\ life false 7 t = POut.
Proof. do 2 eexists. split; [vm_compute; reflexivity|]. split; [split; [reflexivity|]; intros o [<-|[]]; reflexivity|]. split; [reflexivity|]. split; reflexivity. Qed.

(** English: a link that is accepted while force_shutdown() runs can survive it: visited between its being added to the pool and its start, it is
    connected afterwards, and the library does nothing about it any more. *)
Theorem C146_refuted : forall inl, exists l s t, run (mk_cfg 1 inl false) (init 2) l = Some (s, t) /\ settled s /\ life true 7 t = PUp true /\ is_up 7 t = true /\ s_app s = Idle /\
  In (EVisit 7 RShut) t /\ (forall l' s' t', forallb library l' = true -> run (mk_cfg 1 inl false) s l' = Some (s', t') -> t' = []).
Proof.
  intros [|].
  - exists [PConnect 7; SPick 0 0; SGo 0; ACall CShut; ALock; AStep; AStep; SGo 0; SGo 0; SPick 0 0]. do 2 eexists. split; [vm_compute; reflexivity|]. split; [split; [reflexivity|]; intros o [<-|[<-|[]]]; reflexivity|].
    split; [reflexivity|]. split; [reflexivity|]. split; [reflexivity|]. split; [do 2 right; left; reflexivity|]. intros l' s' t' F R. destruct l' as [|a l']; [injection R as _ <-; reflexivity|]. exfalso. cbn [forallb] in F. apply andb_prop in F as (F & _). cbn [run] in R.
    destruct a as [f| | |w k|w|j|j|j]; try discriminate F; cbn in R; try discriminate R.
    + destruct w as [|[|[|w]]]; cbn in R; try discriminate R; destruct k; discriminate R.
    + destruct w as [|[|[|w]]]; cbn in R; discriminate R.
    + unfold upd in R. destruct j as [|[|[|[|[|[|[|[|j]]]]]]]]; cbn in R; discriminate R.
  - exists [PConnect 7; SPick 0 0; SGo 0; ACall CShut; ALock; AStep; AStep; SPick 1 0; SGo 1; SGo 0; SGo 0; SPick 0 0]. do 2 eexists. split; [vm_compute; reflexivity|]. split; [split; [reflexivity|]; intros o [<-|[<-|[]]]; reflexivity|].
    split; [reflexivity|]. split; [reflexivity|]. split; [reflexivity|]. split; [do 2 right; left; reflexivity|]. intros l' s' t' F R. destruct l' as [|a l']; [injection R as _ <-; reflexivity|]. exfalso. cbn [forallb] in F. apply andb_prop in F as (F & _). cbn [run] in R.
    destruct a as [f| | |w k|w|j|j|j]; try discriminate F; cbn in R; try discriminate R.
    + destruct w as [|[|[|w]]]; cbn in R; try discriminate R; destruct k; discriminate R.
    + destruct w as [|[|[|w]]]; cbn in R; discriminate R.
    + unfold upd in R. destruct j as [|[|[|[|[|[|[|[|j]]]]]]]]; cbn in R; discriminate R.
Qed.
Print Assumptions C146_refuted.
Theorem C146_statement_refuted : ~ C146_statement.
Proof. intros H. destruct (C146_refuted false) as (l & s & t & R & S & L & _). exact (proj2 (H _ _ l s t 7 R S) L). Qed.
Print Assumptions C146_statement_refuted.

(** ** the shutdown does come *)
Lemma sum_pos {A} (f : A -> nat) l : 1 <= sum f l -> exists k x, nth_error l k = Some x /\ 1 <= f x.
Proof.
  induction l as [|a l IH]; cbn [sum]; intros H; [lia|]. destruct (Nat.eq_dec (f a) 0) as [Z|Z]; [|exists 0, a; split; [reflexivity|lia]]. destruct IH as (k & x & K & X); [lia|]. exists (S k), x. split; assumption.
Qed.
Lemma shut_goes c s w i : nth_error (s_thr s) w = Some (Some (WShut i)) -> l_up (s_link s i) = true -> l_starting (s_link s i) = false -> exists s' t', run c s [SGo w] = Some (s', t') /\ In (EDown i) t'.
Proof. intros W U S. cbn [run step]. rewrite W, S. unfold shut. rewrite U. do 2 eexists. split; [reflexivity|]. left. reflexivity. Qed.

(** English: a connected link that was visited by force_shutdown() can always be shut down by the library alone (where a service thread is free and
    on_connect does not ask the pool): no later event prevents it. *)
Theorem C146_reaches : forall c n l s t i, run c (init n) l = Some (s, t) -> life false i t = PUp true -> c_asks c = false -> free_thread s = true ->
  exists l' s' t', forallb library l' = true /\ run c s l' = Some (s', t') /\ In (EDown i) t'.
Proof.
  intros c n l s t i R L N F. assert (J := J121_reach _ _ _ _ _ R). assert (EA : false = true -> c_inline c = false /\ n <= 1) by discriminate. destruct (V_reach false c n i EA l s t R) as (A & B). rewrite L in B. destruct B as (U & SH). specialize (SH eq_refl).
  destruct (free_nth s F) as (v & FV).
  assert (U1 : l_up (s_link s i) = true) by (unfold ups in U; destruct (l_up _); [reflexivity|discriminate U]).
  assert (ST : exists l1 s1 t1, forallb library l1 = true /\ run c s l1 = Some (s1, t1) /\ J121 c s1 /\ l_up (s_link s1 i) = true /\ exists w, nth_error (s_thr s1) w = Some (Some (WShut i))).
  { unfold shutting in SH. destruct (Nat.eq_dec (sum (w_shut i) (s_thr s)) 0) as [Z|Z].
    - destruct (sum_pos (h_shut i) (s_pend s)) as (k & h & K & X); [lia|]. destruct h as [j|j|j|j|j]; cbn [h_shut] in X; try lia. unfold one in X. destruct (Nat.eqb_spec j i) as [->|]; [|lia].
      exists [SPick v k]. do 2 eexists. split; [reflexivity|]. split; [cbn [run step]; rewrite FV, K; reflexivity|]. split; [|split; [exact U1|]].
      + apply (J121_run c [SPick v k] s _ [] J). cbn [run step]. rewrite FV, K. reflexivity.
      + exists v. exact (set_nth_eq (s_thr s) v _ _ FV).
    - destruct (sum_pos (w_shut i) (s_thr s)) as (w & o & W & X); [lia|]. destruct o as [[j|j|j|j|j]|]; cbn [w_shut] in X; try lia. unfold one in X. destruct (Nat.eqb_spec j i) as [->|]; [|lia].
      exists [], s, []. split; [reflexivity|]. split; [reflexivity|]. split; [exact J|]. split; [exact U1|]. exists w. exact W. }
  destruct ST as (l1 & s1 & t1 & F1 & R1 & J1 & U2 & w & W). destruct (l_starting (s_link s1 i)) eqn:S.
  - destruct (j_starting c s1 J1 i S) as (x & X). assert (XW : w <> x) by congruence.
    assert (D : exists s2, step c s1 (SGo x) = Some (s2, []) /\ nth_error (s_thr s2) w = Some (Some (WShut i)) /\ l_up (s_link s2 i) = true /\ l_starting (s_link s2 i) = false).
    { eexists. split; [cbn [step]; rewrite X, N; reflexivity|]. pj. rewrite upd_eq. split; [rewrite set_nth_neq by exact XW; exact W|]. split; [exact U2|reflexivity]. }
    destruct D as (s2 & D1 & D2 & D3 & D4). destruct (shut_goes c s2 w i D2 D3 D4) as (s3 & t3 & R3 & I3). exists (l1 ++ [SGo x; SGo w]), s3, (t1 ++ [] ++ t3). split; [rewrite forallb_app, F1; reflexivity|]. split; [|apply in_or_app; right; exact I3].
    rewrite run_app, R1. cbn [run] in *. rewrite D1. rewrite R3. reflexivity.
  - destruct (shut_goes c s1 w i W U2 S) as (s3 & t3 & R3 & I3). exists (l1 ++ [SGo w]), s3, (t1 ++ t3). split; [rewrite forallb_app, F1; reflexivity|]. split; [|apply in_or_app; right; exact I3]. rewrite run_app, R1, R3. reflexivity.
Qed.
Print Assumptions C146_reaches.
Example C146_reaches_example : exists s t, run (mk_cfg 1 false false) (init 2) (firstn 8 l_shut) = Some (s, t) /\ life false 7 t = PUp true /\ free_thread s = true /\ l_starting (s_link s 7) = true.
Proof. do 2 eexists. split; [vm_compute; reflexivity|]. split; [reflexivity|]. split; reflexivity. Qed.
