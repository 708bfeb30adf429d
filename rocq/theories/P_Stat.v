(** C53, C74: statistics. *)
From Coq Require Import List NArith ZArith Bool Arith Lia Permutation.
From Verif Require Import M_Stat.
Import ListNotations.
Open Scope Z_scope.

(** ** What statistics ought to say about samples *)
Fixpoint samples (t : tree) : list sample := match t with Leaf l => l | Sum a b => samples a ++ samples b end.
Definition times (k : nat) (l : list sample) : list Z := flat_map (fun x => match x with XTime i z => if Nat.eqb i k then [z] else [] | _ => [] end) l.
Definition total (l : list Z) : Z := fold_right Z.add 0 l.
(** smallest and largest; 0 if there is none *)
Definition smallest (l : list Z) : Z := match l with [] => 0 | x :: l' => fold_right Z.min x l' end.
Definition largest (l : list Z) : Z := match l with [] => 0 | x :: l' => fold_right Z.max x l' end.
Definition count4 (l : list sample) : N * N * N * N :=
  fold_right (fun x '(a, b, c, d) => match x with XSend m n => (a + m, b + n, c, d)%N | XRecv m n => (a, b, c + m, d + n)%N | _ => (a, b, c, d) end) (0, 0, 0, 0)%N l.
Definition field (k : nat) (s : stat) : dur :=
  match k with 0 => send_delay_sum s | 1 => send_time_sum s | 2 => pack_time_sum s | 3 => dispatch_delay_sum s | 4 => recv_idle_sum s | 5 => handle_time_sum s | _ => unpack_time_sum s end%nat.
Definition counters (s : stat) : N * N * N * N := (send_msg_sum s, send_byte_sum s, recv_msg_sum s, recv_byte_sum s).
Definition mod4 (q : N * N * N * N) : N * N * N * N := let '(a, b, c, d) := q in (a mod RANGE64, b mod RANGE64, c mod RANGE64, d mod RANGE64)%N.

Definition exact (k : nat) (s : stat) (l : list sample) : Prop :=
  dsum (field k s) = total (times k l) /\ dnum (field k s) = Z.of_nat (length (times k l)) /\ dmax (field k s) = largest (times k l) /\ dmin (field k s) = smallest (times k l).

(** ** C53: adding up statistics loses nothing and does not depend on the order *)
Definition C53_statement : Prop := forall t, Forall (fun x => match x with XTime k z => (k < 7)%nat /\ 0 < z | _ => True end) (samples t) ->
  counters (eval t) = mod4 (count4 (samples t)) /\ forall k, (k < 7)%nat -> exact k (eval t) (samples t).
(** False: adding the statistics of an idle socket resets the minimum; and the result depends on the order. *)
Theorem C53_refuted : exists t, Forall (fun x => match x with XTime k z => (k < 7)%nat /\ 0 < z | _ => True end) (samples t) /\
  smallest (times 0 (samples t)) = 5 /\ dmin (field 0 (eval t)) = 0.
Proof. exists (Sum (Leaf [XTime 0 5]) (Leaf [])). split; [constructor; [split; [lia|reflexivity]|constructor]|]. split; reflexivity. Qed.
Print Assumptions C53_refuted.
Theorem C53_order_refuted : exists a b, dmin (field 0 (eval (Sum a b))) <> dmin (field 0 (eval (Sum b a))).
Proof. exists (Leaf [XTime 0 5]), (Leaf []). vm_compute. discriminate. Qed.
Print Assumptions C53_order_refuted.
Theorem C53_statement_refuted : ~ C53_statement.
Proof. intros H. destruct C53_refuted as (t & F & S & D). destruct (H t F) as (_ & E). destruct (E 0%nat ltac:(lia)) as (_ & _ & _ & M). rewrite S, D in M. discriminate. Qed.
Print Assumptions C53_statement_refuted.

Lemma total_app a b : total (a ++ b) = total a + total b.
Proof. induction a as [|x a IH]; cbn [total fold_right app] in *; [reflexivity|]. unfold total in *. lia. Qed.
Lemma times_app k a b : times k (a ++ b) = times k a ++ times k b.
Proof. unfold times. apply flat_map_app. Qed.
Lemma count4_app a b : count4 (a ++ b) = let '(a1, a2, a3, a4) := count4 a in let '(b1, b2, b3, b4) := count4 b in (a1 + b1, a2 + b2, a3 + b3, a4 + b4)%N.
Proof.
  induction a as [|x a IH].
  - change (count4 []) with (0, 0, 0, 0)%N. cbn [app]. destruct (count4 b) as [[[b1 b2] b3] b4]. rewrite !N.add_0_l. reflexivity.
  - cbn [app]. unfold count4 in *. cbn [fold_right]. rewrite IH. destruct (fold_right _ _ a) as [[[a1 a2] a3] a4]. destruct (fold_right _ _ b) as [[[b1 b2] b3] b4]. destruct x as [m n|m n|i z]; [rewrite (N.add_shuffle0 a1 b1 m), (N.add_shuffle0 a2 b2 n)|rewrite (N.add_shuffle0 a3 b3 m), (N.add_shuffle0 a4 b4 n)|]; reflexivity.
Qed.
Lemma fold_min_le x l : forall y, In y (x :: l) -> fold_right Z.min x l <= y.
Proof. induction l as [|z l IH]; intros y H; cbn [fold_right]; [destruct H as [->|[]]; lia|]. destruct H as [->|[->|H]]; [specialize (IH y (or_introl eq_refl)); lia|lia|]. specialize (IH y (or_intror H)). lia. Qed.
Lemma fold_min_in x l : In (fold_right Z.min x l) (x :: l).
Proof. induction l as [|z l IH]; cbn [fold_right]; [left; reflexivity|]. destruct (Z.min_spec z (fold_right Z.min x l)) as [(_ & ->)|(_ & ->)]; [right; left; reflexivity|]. destruct IH as [H|H]; [left; exact H|right; right; exact H]. Qed.
Lemma fold_max_ge x l : forall y, In y (x :: l) -> y <= fold_right Z.max x l.
Proof. induction l as [|z l IH]; intros y H; cbn [fold_right]; [destruct H as [->|[]]; lia|]. destruct H as [->|[->|H]]; [specialize (IH y (or_introl eq_refl)); lia|lia|]. specialize (IH y (or_intror H)). lia. Qed.
Lemma fold_max_in x l : In (fold_right Z.max x l) (x :: l).
Proof. induction l as [|z l IH]; cbn [fold_right]; [left; reflexivity|]. destruct (Z.max_spec z (fold_right Z.max x l)) as [(_ & ->)|(_ & ->)]; [|right; left; reflexivity]. destruct IH as [H|H]; [left; exact H|right; right; exact H]. Qed.
(** characterisation *)
Lemma smallest_is l m : In m l -> (forall y, In y l -> m <= y) -> smallest l = m.
Proof. intros I H. destruct l as [|x l]; [contradiction|]. cbn [smallest]. pose proof (fold_min_le x l m I). pose proof (H _ (fold_min_in x l)). lia. Qed.
Lemma largest_is l m : In m l -> (forall y, In y l -> y <= m) -> largest l = m.
Proof. intros I H. destruct l as [|x l]; [contradiction|]. cbn [largest]. pose proof (fold_max_ge x l m I). pose proof (H _ (fold_max_in x l)). lia. Qed.
Lemma smallest_le l y : In y l -> smallest l <= y.
Proof. destruct l; [contradiction|]. apply fold_min_le. Qed.
Lemma smallest_in l : l <> [] -> In (smallest l) l.
Proof. destruct l; [congruence|]. intros _. apply fold_min_in. Qed.
Lemma largest_ge l y : In y l -> y <= largest l.
Proof. destruct l; [contradiction|]. apply fold_max_ge. Qed.
Lemma largest_in l : l <> [] -> In (largest l) l.
Proof. destruct l; [congruence|]. intros _. apply fold_max_in. Qed.
Definition pos (l : list Z) : Prop := Forall (fun z => 0 < z) l.
Lemma smallest_pos l : pos l -> l <> [] -> 0 < smallest l.
Proof. intros P N. unfold pos in P. rewrite Forall_forall in P. apply P. apply smallest_in. exact N. Qed.
Lemma largest_nonneg l : pos l -> 0 <= largest l.
Proof. intros P. destruct l as [|x l]; [cbn; lia|]. unfold pos in P. rewrite Forall_forall in P. specialize (P _ (fold_max_in x l)). cbn [largest]. lia. Qed.
Lemma smallest_app a b : a <> [] -> b <> [] -> smallest (a ++ b) = Z.min (smallest a) (smallest b).
Proof.
  intros A B. apply smallest_is.
  - apply in_or_app. destruct (Z.min_spec (smallest a) (smallest b)) as [(_ & ->)|(_ & ->)]; [left|right]; apply smallest_in; assumption.
  - intros y H. apply in_app_or in H as [H|H]; pose proof (smallest_le _ _ H); lia.
Qed.
Lemma largest_app a b : pos a -> pos b -> largest (a ++ b) = Z.max (largest a) (largest b).
Proof.
  intros PA PB. pose proof (largest_nonneg _ PA). pose proof (largest_nonneg _ PB). destruct a as [|x a]; [cbn [app largest] in *; lia|]. destruct b as [|y b]; [rewrite app_nil_r; cbn [largest] in *; lia|].
  set (u := x :: a) in *. set (v := y :: b) in *. assert (u <> []) by discriminate. assert (v <> []) by discriminate. apply largest_is.
  - apply in_or_app. destruct (Z.max_spec (largest u) (largest v)) as [(_ & ->)|(_ & ->)]; [right|left]; apply largest_in; assumption.
  - intros z Z. apply in_app_or in Z as [Z|Z]; pose proof (largest_ge _ _ Z); lia.
Qed.

(** one duration that got samples [l] *)
Definition dexact (d : dur) (l : list Z) : Prop := dsum d = total l /\ dnum d = Z.of_nat (length l) /\ dmax d = largest l /\ dmin d = smallest l.
Lemma dexact_sample d l x : pos l -> 0 < x -> dexact d l -> dexact (dur_sample d x) (l ++ [x]).
Proof.
  intros P X (E1 & E2 & E3 & E4). unfold dexact, dur_sample. cbn [dsum dnum dmax dmin]. rewrite total_app, app_length. cbn [length total fold_right]. split; [unfold total in *; lia|]. split; [lia|].
  split; [rewrite largest_app by (assumption || (constructor; [exact X|constructor])); cbn [largest fold_right]; destruct (Z.ltb_spec (dmax d) x); lia|].
  destruct l as [|y l]; [cbn [app smallest fold_right] in *; rewrite E4; reflexivity|]. rewrite smallest_app by discriminate. cbn [smallest fold_right] in *. pose proof (smallest_pos (y :: l) P ltac:(discriminate)) as SP. cbn [smallest] in SP.
  destruct (Z.eqb_spec (dmin d) 0); [lia|]. cbn [orb]. destruct (Z.ltb_spec x (dmin d)); lia.
Qed.
Lemma dexact_add d o l m : pos l -> pos m -> m <> [] -> dexact d l -> dexact o m -> dexact (dur_add d o) (l ++ m).
Proof.
  intros P Q NE (E1 & E2 & E3 & E4) (F1 & F2 & F3 & F4). unfold dexact, dur_add. cbn [dsum dnum dmax dmin]. rewrite total_app, app_length. split; [lia|]. split; [lia|].
  split; [rewrite largest_app by assumption; destruct (Z.ltb_spec (dmax d) (dmax o)); lia|].
  destruct l as [|y l]; [cbn [app smallest] in *; rewrite E4; cbn; exact F4|]. rewrite smallest_app by (assumption || discriminate). pose proof (smallest_pos _ P ltac:(discriminate)) as SP.
  destruct (Z.eqb_spec (dmin d) 0); [lia|]. cbn [orb]. destruct (Z.ltb_spec (dmin o) (dmin d)); lia.
Qed.
(** all but the minimum, also if there are no samples *)
Lemma dadd_sums d o l m : pos l -> pos m -> dsum d = total l -> dnum d = Z.of_nat (length l) -> dmax d = largest l -> dsum o = total m -> dnum o = Z.of_nat (length m) -> dmax o = largest m ->
  dsum (dur_add d o) = total (l ++ m) /\ dnum (dur_add d o) = Z.of_nat (length (l ++ m)) /\ dmax (dur_add d o) = largest (l ++ m).
Proof.
  intros P Q E1 E2 E3 F1 F2 F3. unfold dur_add. cbn [dsum dnum dmax]. rewrite total_app, app_length. split; [lia|]. split; [lia|]. rewrite largest_app by assumption. destruct (Z.ltb_spec (dmax d) (dmax o)); lia.
Qed.
Definition fine (l : list sample) : Prop := Forall (fun x => match x with XTime k z => (k < 7)%nat /\ 0 < z | _ => True end) l.
Lemma fine_times k l : fine l -> pos (times k l).
Proof. induction 1 as [|x l X F IH]; [constructor|]. unfold times, pos in *. cbn [flat_map]. apply Forall_app. split; [|exact IH]. destruct x as [| |i z]; try constructor. destruct (Nat.eqb i k); [constructor; [apply X|constructor]|constructor]. Qed.
Lemma field_record k s x : (k < 7)%nat -> field k (record s x) = match x with XTime i z => if Nat.eqb i k then dur_sample (field k s) z else field k s | _ => field k s end.
Proof. intros K. destruct x; try reflexivity. destruct k as [|[|[|[|[|[|[|k]]]]]]]; try lia; reflexivity. Qed.
Lemma field_add k s o : field k (stat_add s o) = dur_add (field k s) (field k o).
Proof. destruct k as [|[|[|[|[|[|k]]]]]]; reflexivity. Qed.
Lemma stat_of_exact k l : (k < 7)%nat -> fine l -> exact k (stat_of l) l.
Proof.
  intros K. unfold exact. change (fine l -> dexact (field k (stat_of l)) (times k l)). induction l as [|x l IH] using rev_ind; intros F.
  - destruct k as [|[|[|[|[|[|[|k]]]]]]]; try lia; repeat split; reflexivity.
  - apply Forall_app in F as (F & FX). inversion FX as [|? ? X _]; subst. unfold stat_of in *. rewrite fold_left_app. cbn [fold_left]. rewrite field_record by exact K. rewrite times_app. specialize (IH F). destruct x as [m b|m b|i z]; cbn [times flat_map]; try (rewrite app_nil_r; exact IH).
    destruct (Nat.eqb i k); cbn [app]; [|rewrite app_nil_r; exact IH]. apply dexact_sample; [apply fine_times; exact F|apply X|exact IH].
Qed.
Lemma RANGE_nz : RANGE64 <> 0%N.
Proof. discriminate. Qed.
Lemma add64_mod a b : add64 (a mod RANGE64) (b mod RANGE64) = ((a + b) mod RANGE64)%N.
Proof. unfold add64. symmetry. apply N.add_mod. exact RANGE_nz. Qed.
Lemma add64_mod_l a b : add64 (a mod RANGE64) b = ((a + b) mod RANGE64)%N.
Proof. unfold add64. rewrite N.add_mod_idemp_l by exact RANGE_nz. reflexivity. Qed.
Lemma counters_of l : counters (stat_of l) = mod4 (count4 l).
Proof.
  induction l as [|x l IH] using rev_ind; [reflexivity|]. unfold stat_of in *. rewrite fold_left_app. cbn [fold_left]. rewrite count4_app. destruct (count4 l) as [[[a b] c] d]. cbn [count4 fold_right]. unfold mod4 in *. unfold counters in *.
  assert (E : forall s, (send_msg_sum s, send_byte_sum s, recv_msg_sum s, recv_byte_sum s) = (a mod RANGE64, b mod RANGE64, c mod RANGE64, d mod RANGE64)%N -> (send_msg_sum s = a mod RANGE64 /\ send_byte_sum s = b mod RANGE64 /\ recv_msg_sum s = c mod RANGE64 /\ recv_byte_sum s = d mod RANGE64)%N) by (intros s H; inversion H; auto).
  destruct (E _ IH) as (E1 & E2 & E3 & E4). clear E IH. destruct x as [m n|m n|i z]; cbn [record send_msg_sum send_byte_sum recv_msg_sum recv_byte_sum]; rewrite ?E1, ?E2, ?E3, ?E4, ?add64_mod_l, ?N.add_0_l, ?N.add_0_r; reflexivity.
Qed.
Lemma counters_eval t : counters (eval t) = mod4 (count4 (samples t)).
Proof.
  induction t as [l|a IHa b IHb]; cbn [eval samples]; [apply counters_of|]. rewrite count4_app. destruct (count4 (samples a)) as [[[a1 a2] a3] a4]. destruct (count4 (samples b)) as [[[b1 b2] b3] b4]. unfold counters, mod4 in *.
  assert (E : forall s x y z w, (send_msg_sum s, send_byte_sum s, recv_msg_sum s, recv_byte_sum s) = (x, y, z, w) -> (send_msg_sum s = x /\ send_byte_sum s = y /\ recv_msg_sum s = z /\ recv_byte_sum s = w)%N) by (intros s x y z w H; inversion H; auto).
  destruct (E _ _ _ _ _ IHa) as (A1 & A2 & A3 & A4). destruct (E _ _ _ _ _ IHb) as (B1 & B2 & B3 & B4). cbn [stat_add send_msg_sum send_byte_sum recv_msg_sum recv_byte_sum]. rewrite A1, A2, A3, A4, B1, B2, B3, B4, !add64_mod. reflexivity.
Qed.
(** Counters, sums, numbers and maxima are right in any order and grouping; ... *)
Theorem C53_sums_partial t : fine (samples t) -> counters (eval t) = mod4 (count4 (samples t)) /\
  forall k, (k < 7)%nat -> dsum (field k (eval t)) = total (times k (samples t)) /\ dnum (field k (eval t)) = Z.of_nat (length (times k (samples t))) /\ dmax (field k (eval t)) = largest (times k (samples t)).
Proof.
  intros F. split; [apply counters_eval|]. intros k K. induction t as [l|a IHa b IHb]; cbn [eval samples] in *.
  - destruct (stat_of_exact k l K F) as (E1 & E2 & E3 & _). auto.
  - apply Forall_app in F as (FA & FB). destruct (IHa FA) as (A1 & A2 & A3). destruct (IHb FB) as (B1 & B2 & B3). rewrite field_add, times_app. apply dadd_sums; try assumption; apply fine_times; assumption.
Qed.
Print Assumptions C53_sums_partial.
(** ... minima too, if whatever is added has at least one sample of the kind. *)
Fixpoint no_empty_operand (k : nat) (t : tree) : Prop := match t with Leaf _ => True | Sum a b => no_empty_operand k a /\ no_empty_operand k b /\ times k (samples b) <> [] end.
Theorem C53_minimum_partial t k : (k < 7)%nat -> fine (samples t) -> no_empty_operand k t -> exact k (eval t) (samples t).
Proof.
  intros K. unfold exact. change (fine (samples t) -> no_empty_operand k t -> dexact (field k (eval t)) (times k (samples t))). induction t as [l|a IHa b IHb]; intros F NE; cbn [eval samples no_empty_operand] in *.
  - apply stat_of_exact; assumption.
  - apply Forall_app in F as (FA & FB). destruct NE as (NA & NB & NE). rewrite field_add, times_app. apply dexact_add; try (apply fine_times; assumption); auto.
Qed.
Print Assumptions C53_minimum_partial.
Example C53_example : let t := Sum (Leaf []) (Sum (Leaf [XTime 2 7; XSend 1 10]) (Leaf [XTime 2 3; XRecv 2 5])) in fine (samples t) /\ no_empty_operand 2 t /\ field 2 (eval t) = mk_dur 10 3 7 2.
Proof. cbn zeta. split; [repeat (constructor; [exact I || (split; [lia|reflexivity])|]); constructor|]. split; [cbn; repeat split; discriminate|reflexivity]. Qed.

(** ** C74: differences and averages *)
Lemma sub_add a b : (a < RANGE64 -> sub64 (add64 a b) b = a)%N.
Proof.
  intros H. unfold sub64, add64. rewrite N.add_mod_idemp_l by exact RANGE_nz. pose proof (N.mod_lt b RANGE64 RANGE_nz) as ML.
  pose proof (N.div_mod b RANGE64 RANGE_nz) as DM. replace (a + b + (RANGE64 - b mod RANGE64))%N with (a + (b / RANGE64 + 1) * RANGE64)%N by lia. rewrite N.mod_add by exact RANGE_nz. apply N.mod_small. exact H.
Qed.
(** The difference of two snapshots of a statistic is what was counted in between. *)
Theorem C74_difference l m : let d := stat_sub (stat_of (l ++ m)) (stat_of l) in fine (l ++ m) ->
  counters d = mod4 (count4 m) /\ forall k, (k < 7)%nat -> dsum (field k d) = total (times k m) /\ dnum (field k d) = Z.of_nat (length (times k m)).
Proof.
  intros d F. split.
  - unfold d. pose proof (counters_of (l ++ m)) as E. pose proof (counters_of l) as G. rewrite count4_app in E. destruct (count4 l) as [[[a1 a2] a3] a4]. destruct (count4 m) as [[[b1 b2] b3] b4]. unfold counters, mod4 in *.
    assert (X : forall s x y z w, (send_msg_sum s, send_byte_sum s, recv_msg_sum s, recv_byte_sum s) = (x, y, z, w) -> (send_msg_sum s = x /\ send_byte_sum s = y /\ recv_msg_sum s = z /\ recv_byte_sum s = w)%N) by (intros s x y z w H; inversion H; auto).
    destruct (X _ _ _ _ _ E) as (A1 & A2 & A3 & A4). destruct (X _ _ _ _ _ G) as (B1 & B2 & B3 & B4). cbn [stat_sub send_msg_sum send_byte_sum recv_msg_sum recv_byte_sum]. rewrite A1, A2, A3, A4, B1, B2, B3, B4.
    assert (S : forall x y, sub64 ((x + y) mod RANGE64) (x mod RANGE64) = (y mod RANGE64)%N).
    { intros x y. rewrite <- (sub_add (y mod RANGE64) (x mod RANGE64)) by (apply N.mod_lt; exact RANGE_nz). rewrite add64_mod, (N.add_comm y x). reflexivity. }
    rewrite !S. reflexivity.
  - intros k K. pose proof F as F0. apply Forall_app in F as (FL & FM). destruct (stat_of_exact k _ K F0) as (A1 & A2 & _). destruct (stat_of_exact k _ K FL) as (B1 & B2 & _).
    assert (E : field k d = dur_sub (field k (stat_of (l ++ m))) (field k (stat_of l))) by (destruct k as [|[|[|[|[|[|k]]]]]]; reflexivity). rewrite E. cbn [dur_sub dsum dnum]. rewrite A1, A2, B1, B2, times_app, total_app, app_length. lia.
Qed.
Print Assumptions C74_difference.
Lemma total_bounds l : Forall (fun y => smallest l <= y <= largest l) l -> Z.of_nat (length l) * smallest l <= total l <= Z.of_nat (length l) * largest l.
Proof. generalize (smallest l) (largest l). intros a b. induction 1 as [|x l X F IH]; [cbn; lia|]. cbn [length total fold_right]. unfold total in IH. lia. Qed.
(** The average lies between the minimum and the maximum. *)
Theorem C74_average l k : (k < 7)%nat -> fine l -> times k l <> [] -> let d := field k (stat_of l) in dmin d <= dur_avg d <= dmax d /\ 0 < dmin d.
Proof.
  intros K F NE d. destruct (stat_of_exact k l K F) as (E1 & E2 & E3 & E4). fold d in E1, E2, E3, E4. pose proof (fine_times k l F) as P. set (x := times k l) in *. clearbody x d.
  assert (B : Forall (fun y => smallest x <= y <= largest x) x) by (apply Forall_forall; intros y Y; split; [apply smallest_le|apply largest_ge]; exact Y). apply total_bounds in B.
  pose proof (smallest_pos x P NE) as SP. assert (N : 0 < Z.of_nat (length x)) by (destruct x; [congruence|cbn [length]; lia]).
  unfold dur_avg. rewrite E1, E2, E3, E4. destruct (Z.eqb_spec (Z.of_nat (length x)) 0); [lia|]. rewrite Z.quot_div_nonneg by nia.
  split; [split; [apply Z.div_le_lower_bound; lia|apply Z.div_le_upper_bound; lia]|exact SP].
Qed.
Print Assumptions C74_average.
Example C74_example : fine ([XTime 1 4; XSend 1 9] ++ [XTime 1 7; XSend 2 11]) /\ counters (stat_sub (stat_of ([XTime 1 4; XSend 1 9] ++ [XTime 1 7; XSend 2 11])) (stat_of [XTime 1 4; XSend 1 9])) = (2, 11, 0, 0)%N /\ dur_avg (field 1 (stat_of [XTime 1 4; XTime 1 7])) = 5.
Proof. split; [repeat (constructor; [exact I || (split; [lia|reflexivity])|]); constructor|]. split; vm_compute; reflexivity. Qed.
