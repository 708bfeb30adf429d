(** C41-C44, C67, C68: object pools, for every history and every interleaving of the critical sections. *)
From Coq Require Import List NArith Bool Arith Lia ZifyBool ZifyNat ZifyN Permutation.
From Verif Require Import M_Pool S_Pool L_Pool.
Import ListNotations.
Open Scope N_scope.

Local Ltac run_it := do 2 eexists; split; [vm_compute; reflexivity|]; repeat match goal with |- _ /\ _ => split end; (vm_compute; reflexivity).

(** ** C41: ids of valid objects are unique and lookups exact *)
Theorem C41_find_exact reuse start max al s tr id p : psteps reuse (new_pool start max) al = Some (s, tr) ->
  (find_object s id = Some p <-> In p (valid s) /\ o_id (obj s p) = id).
Proof.
  intros R. pose proof (i_key _ (pinv_psteps _ _ _ _ _ R (pinv_new _ _))) as K. unfold find_object. split.
  - intros H. apply lookup_In in H. split; [apply valid_In; eauto|exact (keyed_id s p id K H)].
  - intros (H & <-). apply (keyed_valid s p K) in H. apply In_lookup; [apply K|exact H].
Qed.
Print Assumptions C41_find_exact.

Theorem C41_ids_unique reuse start max al s tr : psteps reuse (new_pool start max) al = Some (s, tr) ->
  NoDup (valid s) /\ forall p q, In p (valid s) -> In q (valid s) -> o_id (obj s p) = o_id (obj s q) -> p = q.
Proof.
  intros R. pose proof (i_key _ (pinv_psteps _ _ _ _ _ R (pinv_new _ _))) as K. split; [apply keyed_nodup; exact K|].
  intros p q HP HQ E. assert (F : find_object s (o_id (obj s q)) = Some p) by (apply (C41_find_exact _ _ _ _ _ _ _ _ R); auto).
  rewrite (proj2 (C41_find_exact _ _ _ _ _ _ _ _ R) (conj HQ eq_refl)) in F. congruence.
Qed.
Print Assumptions C41_ids_unique.

(** two objects added, one renamed to the id of a deleted one, one refused *)
Definition ex_hist : list pact :=
  [PCreate; PCreate; PAdd 0; PAdd 1; PObs 0 true; PDel 0; PPush 0; PDrop 0; PChange 1 100; PChange2 0; PCreate; PAdd 2; PInit 2 100].
Example C41_example : exists s tr, psteps true (new_pool 100 5) ex_hist = Some (s, tr) /\
  valid s = [1; 2]%nat /\ map (fun p => o_id (obj s p)) (valid s) = [100; 102] /\ find_object s 100 = Some 1%nat /\ find_object s 101 = None /\
  tr = [EvNew 0 100; EvNew 1 101; EvAdd 0 true; EvAdd 1 true; EvDel true; EvTake 1 0 100; EvNew 2 102; EvAdd 2 true; EvInit 2 100 false].
Proof. run_it. Qed.

(** ** C42: objects are freed or reused only when nobody uses them *)
(** nobody has a reference: not the application, not the valid objects, not a function in progress *)
Definition unused (s : pool) (p : nat) : Prop := o_obs (obj s p) = true /\ o_ext (obj s p) = 0%nat /\ ~ In p (valid s) /\
  ~ In p (concat (map frame_ptrs (pend s))).
Theorem C42_freed_when_unused reuse s a s1 evs p : pstep reuse s a = Some (s1, evs) ->
  (In (EvFree p) evs -> unused s p /\ In p (inv s) /\ refs s1 p = 0%nat) /\
  (forall id, In (EvReuse p id) evs -> unused s p /\ In p (inv s) /\ ~ In p (kept s1)) /\
  (forall q id, ~ In (FChg q p id) (pend s) -> In (FChg q p id) (pend s1) -> unused s p /\ In p (inv s) /\ o_id (obj s p) = id).
Proof.
  intros ST. split; [|split].
  - intros F. destruct a as [| | | | | | | | | | | |num]; cbn [pstep] in ST;
      try (repeat match type of ST with
          | (match ?x with _ => _ end) = _ => destruct x
          | (let '(_, _) := ?x in _) = _ => destruct x
          end; inversion ST; subst; cbn [In] in F; intuition discriminate).
    destruct (free_loop s num (inv s)) as [freed l] eqn:FL. inversion ST; subst. destruct (free_loop_spec _ _ _ _ _ FL) as (FI & PM).
    apply in_map_iff in F. destruct F as (x & E & F). inversion E; subst x. assert (IN : In p (inv s)) by (apply (Permutation_in _ (Permutation_sym PM)); apply in_or_app; auto).
    destruct (idle_inv s p (FI _ F) IN) as (O1 & O2 & O3 & O4 & O5). split; [repeat split; auto|]. split; [exact IN|].
    unfold refs. change (obj (with_inv s l)) with (obj s). cbn [with_inv can inv pend]. rewrite (perm_count p _ _ PM), count_app in O4. unfold valid in O3. rewrite count_In in *. lia.
  - intros id F. destruct a; cbn [pstep] in ST;
      try (repeat match type of ST with
          | (match ?x with _ => _ end) = _ => destruct x
          | (let '(_, _) := ?x in _) = _ => destruct x
          end; inversion ST; subst; try (apply in_map_iff in F; destruct F as (? & F & _); discriminate); cbn [In] in F; intuition discriminate).
    destruct (if reuse then pop_any s (inv s) else None) as [[x l]|] eqn:PA; inversion ST; subst; destruct F as [F|[]]; [|discriminate]. inversion F; subst x.
    destruct reuse; [|discriminate]. destruct (pop_any_spec _ _ _ _ PA) as (ID & a & b & E1 & E2).
    assert (IN : In p (inv s)) by (rewrite E1; apply in_or_app; right; left; reflexivity).
    destruct (idle_inv s p ID IN) as (O1 & O2 & O3 & O4 & O5). split; [repeat split; auto|]. split; [exact IN|].
    unfold kept. change (valid (upd_obj _ _ _)) with (valid s). change (inv (upd_obj _ _ _)) with l. change (pend (upd_obj _ _ _)) with (pend s).
    rewrite E1, count_app, count_cons, Nat.eqb_refl in O4. rewrite E2, !in_app_iff. rewrite !(count_In p a), !(count_In p b). intuition lia.
  - intros q id NF F. destruct a as [| | | | | | |k| |p0 id0|k| |]; cbn [pstep] in ST.
    all: try (repeat match type of ST with
          | (match ?x with _ => _ end) = _ => destruct x
          | (let '(_, _) := ?x in _) = _ => destruct x
          end; inversion ST; subst; cbn [upd_obj with_can with_inv with_pend with_cur pend] in F; try contradiction; (apply in_app_iff in F; destruct F as [F|[F|[]]]; [contradiction|discriminate])).
    + destruct (nth_error (pend s) k) as [[ps|]|]; try discriminate. inversion ST; subst. apply drop_nth_sub in F. contradiction.
    + destruct (0 <? _)%nat; [|discriminate]. unfold init_object_id in ST. destruct (_ =? _); [|destruct (lookup _ _)]; inversion ST; subst; contradiction.
    + destruct (0 <? _)%nat; [|discriminate]. destruct (pop_id s id0 (inv s)) as [[old l]|] eqn:PI; inversion ST; subst; [|contradiction].
      cbn [with_pend pend] in F. apply in_app_iff in F. destruct F as [F|[F|[]]]; [contradiction|]. inversion F; subst.
      destruct (pop_id_spec _ _ _ _ _ PI) as (ID & OI & a & b & E1 & E2). assert (IN : In p (inv s)) by (rewrite E1; apply in_or_app; right; left; reflexivity).
      destruct (idle_inv s p ID IN) as (O1 & O2 & O3 & O4 & O5). split; [repeat split; auto|]. auto.
    + destruct (nth_error (pend s) k) as [[|p1 old1 id1]|] eqn:NT; try discriminate. destruct (0 <? _)%nat; [|discriminate]. unfold init_object_id in ST.
      destruct (_ =? _); [|destruct (lookup _ _)]; inversion ST; subst; cbn [upd_obj with_can with_inv with_pend with_cur pend] in F; try (apply drop_nth_sub in F; contradiction);
        (apply in_app_iff in F; destruct F as [F|[F|[]]]; [|discriminate]; apply drop_nth_sub in F; contradiction).
Qed.
Print Assumptions C42_freed_when_unused.

(** the application still holds the first of two deleted objects: only the second one is freed *)
Definition ex_free : list pact := [PCreate; PCreate; PAdd 0; PAdd 1; PObs 0 true; PObs 1 true; PClear; PPush 0; PDrop 1; PFree 10].
Example C42_example : exists s tr, psteps false (new_pool 0 5) ex_free = Some (s, tr) /\ inv s = [0]%nat /\ nth_error tr 4 = Some (EvFree 1).
Proof. run_it. Qed.
Example C42_reuse_example : exists s tr, psteps true (new_pool 0 5) [PCreate; PAdd 0; PObs 0 true; PDelId 0; PPush 0; PDrop 0; PCreate] = Some (s, tr) /\ nth_error tr 3 = Some (EvReuse 0 1).
Proof. run_it. Qed.

(** The same by what was seen from outside: the pointers to an object that the application got and dropped, and what its obsoleted()
    says since it was created or used again. *)
Definition got (p : nat) (e : pev) : bool := match e with EvNew q _ | EvReuse q _ | EvTake _ q _ => (q =? p)%nat | _ => false end.
Definition young (p : nat) (e : pev) : bool := match e with EvNew q _ | EvReuse q _ => (q =? p)%nat | _ => false end.
Definition hands (p : nat) (w : nat * bool) (x : pact * list pev) : nat * bool :=
  match fst x with
  | PHold q => (if (q =? p)%nat then S (fst w) else fst w, snd w)
  | PDrop q => (if (q =? p)%nat then pred (fst w) else fst w, snd w)
  | PObs q b => (fst w, if (q =? p)%nat then b else snd w)
  | _ => (if existsb (got p) (snd x) then S (fst w) else fst w, if existsb (young p) (snd x) then false else snd w)
  end.
(** actions with what they gave *)
Fixpoint plog (reuse : bool) (s : pool) (al : list pact) : list (pact * list pev) :=
  match al with
  | [] => []
  | a :: al' => match pstep reuse s a with Some (s1, e) => (a, e) :: plog reuse s1 al' | None => [] end
  end.
Definition view (s : pool) (p : nat) : nat * bool := (o_ext (obj s p), o_obs (obj s p)).
Lemma view_step reuse s a s1 evs p : pinv s -> pstep reuse s a = Some (s1, evs) -> view s1 p = hands p (view s p) (a, evs).
Proof.
  intros V ST. pose proof (i_in _ V) as I. unfold inside in I. rewrite Forall_forall in I.
  assert (KI : forall q, In q (inv s) -> (q < length (objs s))%nat) by (intros q H; apply I; unfold kept; rewrite !in_app_iff; auto).
  assert (KV : forall q, In q (valid s) -> (q < length (objs s))%nat) by (intros q H; apply I; unfold kept; rewrite !in_app_iff; auto).
  assert (KP : forall q, In q (concat (map frame_ptrs (pend s))) -> (q < length (objs s))%nat) by (intros q H; apply I; unfold kept; rewrite !in_app_iff; auto).
  assert (RP : forall q, (0 <? refs s q)%nat = true -> (q < length (objs s))%nat).
  { intros q Q. apply Nat.ltb_lt in Q. rewrite refs_kept in Q. destruct (o_ext (obj s q)) eqn:E; [|apply ext_in; rewrite E; reflexivity]. apply I, count_In. lia. }
  unfold view, hands. cbn [fst snd].
  destruct a as [|q|q|q b|q|q|id|k|q id|q id|k| |num]; cbn [pstep] in ST.
  - set (id := (1 + cur_id s) mod 18446744073709551616) in *. destruct (if reuse then pop_any s (inv s) else None) as [[q l]|] eqn:PA; inversion ST; subst; clear ST; cbn [existsb got young]; rewrite !orb_false_r.
    + destruct reuse; [|discriminate]. destruct (pop_any_spec _ _ _ _ PA) as (_ & x & y & E1 & _). assert (L : (q < length (objs s))%nat) by (apply KI; rewrite E1; apply in_or_app; right; left; reflexivity).
      rewrite (obj_upd (with_cur (with_inv s l) id) q _ p L). rewrite (Nat.eqb_sym q p). destruct (Nat.eqb_spec p q) as [->|]; reflexivity.
    + unfold obj at 1 2. cbn [objs]. destruct (Nat.eqb_spec (length (objs s)) p) as [<-|NE].
      * rewrite nth_middle. cbn [o_ext o_obs]. rewrite obj_out by lia. reflexivity.
      * destruct (Nat.lt_ge_cases p (length (objs s))) as [L|L]; [rewrite app_nth1 by exact L; reflexivity|]. rewrite (obj_out s p L). rewrite nth_overflow by (rewrite app_length; cbn; lia). reflexivity.
  - destruct (_ || _) eqn:C; [|discriminate]. inversion ST; subst; clear ST. assert (L : (q < length (objs s))%nat).
    { apply orb_true_iff in C as [C|C]; [apply ext_in; exact C|]. unfold listed in C. apply existsb_exists in C as (x & X & E). apply Nat.eqb_eq in E. subst x. apply in_app_or in X as [X|X]; auto. }
    rewrite (obj_upd s q more p L), (Nat.eqb_sym q p). destruct (Nat.eqb_spec p q) as [->|]; reflexivity.
  - destruct (0 <? _)%nat eqn:C; [|discriminate]. inversion ST; subst; clear ST. rewrite (obj_upd s q less p (ext_in _ _ C)), (Nat.eqb_sym q p). destruct (Nat.eqb_spec p q) as [->|]; reflexivity.
  - destruct (0 <? _)%nat eqn:C; [|discriminate]. inversion ST; subst; clear ST. rewrite (obj_upd s q _ p (RP _ C)), (Nat.eqb_sym q p). destruct (Nat.eqb_spec p q) as [->|]; reflexivity.
  - destruct (0 <? _)%nat; [|discriminate]. destruct (lookup _ _); [|destruct (_ <? _)]; inversion ST; subst; reflexivity.
  - destruct (0 <? _)%nat; [|discriminate]. destruct (lookup _ _); inversion ST; subst; reflexivity.
  - destruct (lookup _ _); inversion ST; subst; reflexivity.
  - destruct (nth_error (pend s) k) as [[ps|]|]; try discriminate. inversion ST; subst; reflexivity.
  - destruct (0 <? _)%nat eqn:C; [|discriminate]. destruct (init_object_id s q id) as [ok s2] eqn:IN. inversion ST; subst; clear ST. cbn [existsb got young].
    destruct (init_spec _ _ _ _ _ (i_key _ V) (ext_in _ _ C) IN) as (_ & _ & _ & _ & _ & O1 & O2 & O3 & _). destruct (Nat.eq_dec p q) as [->|NE]; [rewrite O2, O3|rewrite (O1 p NE)]; reflexivity.
  - destruct (0 <? _)%nat; [|discriminate]. destruct (pop_id s id (inv s)) as [[old l]|]; inversion ST; subst; reflexivity.
  - destruct (nth_error (pend s) k) as [[|q old id]|] eqn:NT; try discriminate. destruct (0 <? _)%nat eqn:C; [|discriminate].
    set (s0 := with_pend s (drop_nth k (pend s))) in *. destruct (init_object_id s0 q id) as [ok s2] eqn:IN.
    destruct (init_spec s0 _ _ _ _ (i_key _ V) (ext_in s0 _ C) IN) as (_ & _ & _ & _ & O0 & O1 & O2 & O3 & _). change (obj s0) with (obj s) in *. change (objs s0) with (objs s) in *.
    assert (SAME : o_ext (obj s2 p) = o_ext (obj s p) /\ o_obs (obj s2 p) = o_obs (obj s p)) by (destruct (Nat.eq_dec p q) as [->|NE]; [rewrite O2, O3|rewrite (O1 p NE)]; auto). destruct SAME as (S1 & S2).
    destruct ok; inversion ST; subst; clear ST; cbn [existsb got young]; rewrite ?orb_false_r; [|change (obj (with_pend s2 (pend s2 ++ [FInv [old]]))) with (obj s2); rewrite S1, S2; reflexivity].
    assert (L : (old < length (objs s2))%nat). { rewrite O0. apply KP. apply in_concat. exists [old]. split; [apply in_map_iff; exists (FChg q old id); split; [reflexivity|exact (nth_error_In _ _ NT)]|left; reflexivity]. }
    rewrite (obj_upd s2 old more p L), (Nat.eqb_sym old p). destruct (Nat.eqb_spec p old) as [->|]; cbn [more o_ext o_obs]; rewrite S1, S2; reflexivity.
  - destruct (filter _ (can s)); inversion ST; subst; reflexivity.
  - destruct (free_loop s num (inv s)) as [freed l]. inversion ST; subst. assert (N : forall g, (forall x, g (EvFree x) = false) -> existsb g (map EvFree freed) = false) by (intros g G; induction freed as [|x f IH]; cbn; rewrite ?G; auto).
    rewrite !N by reflexivity. reflexivity.
Qed.
Lemma view_run reuse al : forall s s1 tr p, pinv s -> psteps reuse s al = Some (s1, tr) -> view s1 p = fold_left (hands p) (plog reuse s al) (view s p).
Proof.
  induction al as [|a al IH]; intros s s1 tr p V H; cbn [psteps plog] in *; [injection H as <- <-; reflexivity|].
  destruct (pstep reuse s a) as [[s2 l2]|] eqn:E; [|discriminate H]. destruct (psteps reuse s2 al) as [[s3 l3]|] eqn:E3; [|discriminate H]. injection H as <- <-.
  cbn [fold_left]. rewrite <- (view_step _ _ _ _ _ p V E). exact (IH _ _ _ p (pinv_pstep _ _ _ _ _ E V) E3).
Qed.
(** An object is freed, used again or taken for a restored one only if the application dropped all its pointers to it, and it is obsolete. *)
Theorem C42_not_in_hands reuse start max al s tr a s1 evs p : psteps reuse (new_pool start max) al = Some (s, tr) -> pstep reuse s a = Some (s1, evs) ->
  In (EvFree p) evs \/ (exists id, In (EvReuse p id) evs) \/ (exists q id, ~ In (FChg q p id) (pend s) /\ In (FChg q p id) (pend s1)) ->
  fold_left (hands p) (plog reuse (new_pool start max) al) (0%nat, false) = (0%nat, true).
Proof.
  intros R ST H. destruct (C42_freed_when_unused _ _ _ _ _ p ST) as (F1 & F2 & F3).
  assert (U : unused s p) by (destruct H as [H|[(id & H)|(q & id & H1 & H2)]]; [exact (proj1 (F1 H))|exact (proj1 (F2 id H))|exact (proj1 (F3 q id H1 H2))]).
  destruct U as (U1 & U2 & _). pose proof (view_run _ _ _ _ _ p (pinv_new start max) R) as W. unfold view in W. rewrite U1, U2 in W. rewrite W. f_equal. destruct p; reflexivity.
Qed.
Print Assumptions C42_not_in_hands.
(** at the end the application holds one pointer to the first object and none to the second one *)
Example C42_not_in_hands_example : exists s tr s1 evs, psteps false (new_pool 0 5) (firstn 9 ex_free) = Some (s, tr) /\ pstep false s (PFree 10) = Some (s1, evs) /\ evs = [EvFree 1] /\
  fold_left (hands 0) (plog false (new_pool 0 5) (firstn 9 ex_free)) (0%nat, false) = (1%nat, true).
Proof. do 4 eexists. split; [vm_compute; reflexivity|]. split; [vm_compute; reflexivity|]. split; vm_compute; reflexivity. Qed.

(** ** C43: automatic ids count up *)
Lemma created_app a b : created_ids (a ++ b) = created_ids a ++ created_ids b.
Proof. induction a as [|[] a IH]; cbn [created_ids app]; rewrite ?IH; reflexivity. Qed.
Lemma created_step reuse s a s1 evs : pstep reuse s a = Some (s1, evs) ->
  (created_ids evs = [] /\ cur_id s1 = cur_id s) \/ (created_ids evs = [(1 + cur_id s) mod 18446744073709551616] /\ cur_id s1 = (1 + cur_id s) mod 18446744073709551616).
Proof.
  intros ST. destruct a; cbn [pstep] in ST; [right|left..]; unfold init_object_id in ST;
      try (repeat match type of ST with
          | (match ?x with _ => _ end) = _ => destruct x
          | (let '(_, _) := ?x in _) = _ => destruct x
          end; inversion ST; subst; split; reflexivity).
  - destruct (0 <? _)%nat; [|discriminate]. destruct (_ =? _); [|destruct (lookup _ _)]; inversion ST; subst; split; reflexivity.
  - destruct (nth_error (pend s) k) as [[|p1 old1 id1]|]; try discriminate. destruct (0 <? _)%nat; [|discriminate]. destruct (_ =? _); [|destruct (lookup _ _)]; inversion ST; subst; split; reflexivity.
  - destruct (free_loop s num (inv s)) as [freed l]. inversion ST; subst. split; [|reflexivity]. induction freed as [|x f IH]; cbn [map created_ids]; auto.
Qed.
Lemma created_run reuse al : forall s s1 tr, psteps reuse s al = Some (s1, tr) ->
  forall k id, nth_error (created_ids tr) k = Some id -> id = (1 + cur_id s + N.of_nat k) mod 18446744073709551616.
Proof.
  induction al as [|a al IH]; intros s s1 tr H k id K; cbn [psteps] in H; [inversion H; subst; destruct k; discriminate|].
  destruct (pstep reuse s a) as [[s2 l2]|] eqn:E; [|discriminate]. destruct (psteps reuse s2 al) as [[s3 l3]|] eqn:E3; [|discriminate]. inversion H; subst. rewrite created_app in K.
  destruct (created_step _ _ _ _ _ E) as [(C1 & C2)|(C1 & C2)]; rewrite C1 in K; cbn [app] in K.
  - rewrite <- C2. exact (IH _ _ _ E3 _ _ K).
  - destruct k as [|k]; cbn [nth_error] in K.
    + injection K as <-. rewrite N.add_0_r. reflexivity.
    + rewrite (IH _ _ _ E3 _ _ K), C2. change (N.of_nat (S k)) with (N.of_nat (S k)). replace (1 + cur_id s + N.of_nat (S k)) with (1 + cur_id s + (1 + N.of_nat k)) by lia.
      rewrite (N.add_comm 1 (_ mod _)), <- N.add_assoc, N.add_mod_idemp_l by discriminate. reflexivity.
Qed.
(** The ids given by create_object, by whatever thread, are start, start+1, ... as 64-bit numbers. *)
Theorem C43_ids_count_up reuse start max al s tr k id : start < 18446744073709551616 ->
  psteps reuse (new_pool start max) al = Some (s, tr) -> nth_error (created_ids tr) k = Some id ->
  id = (start + N.of_nat k) mod 18446744073709551616.
Proof.
  intros B R K. rewrite (created_run _ _ _ _ _ R _ _ K). cbn [new_pool cur_id].
  rewrite (N.add_comm 1), <- N.add_assoc, N.add_mod_idemp_l by discriminate.
  replace (start + 18446744073709551615 + (1 + N.of_nat k)) with (start + N.of_nat k + 1 * 18446744073709551616) by lia. apply N.mod_add. discriminate.
Qed.
Print Assumptions C43_ids_count_up.
Theorem C43_ids_distinct reuse start max al s tr : start < 18446744073709551616 ->
  psteps reuse (new_pool start max) al = Some (s, tr) -> N.of_nat (length (created_ids tr)) <= 18446744073709551616 -> NoDup (created_ids tr).
Proof.
  intros B R L. apply NoDup_nth_error. intros i j I E. destruct (nth_error (created_ids tr) i) as [x|] eqn:EI; [|apply nth_error_None in EI; lia]. symmetry in E.
  assert (J : (j < length (created_ids tr))%nat) by (apply nth_error_Some; congruence).
  pose proof (C43_ids_count_up _ _ _ _ _ _ _ _ B R EI) as X. pose proof (C43_ids_count_up _ _ _ _ _ _ _ _ B R E) as Y. rewrite X in Y. clear X EI E R.
  assert (M : 18446744073709551616 <> 0) by discriminate. set (W := 18446744073709551616) in *. clearbody W.
  pose proof (N.div_mod (start + N.of_nat i) W M) as D1. pose proof (N.div_mod (start + N.of_nat j) W M) as D2. rewrite Y in D1.
  assert (Q : (start + N.of_nat i) / W = (start + N.of_nat j) / W).
  { destruct (N.lt_trichotomy ((start + N.of_nat i) / W) ((start + N.of_nat j) / W)) as [T|[T|T]]; [|exact T|]; exfalso; nia. }
  rewrite Q in D1. lia.
Qed.
Print Assumptions C43_ids_distinct.
Example C43_example : exists s tr, psteps false (new_pool 18446744073709551615 5) [PCreate; PCreate; PCreate] = Some (s, tr) /\ created_ids tr = [18446744073709551615; 0; 1].
Proof. run_it. Qed.

(** ** C44: restoring a valid socket under the id of an abandoned one *)
Lemma chg_spec reuse s k p old id s1 evs : pinv s -> nth_error (pend s) k = Some (FChg p old id) -> pstep reuse s (PChange2 k) = Some (s1, evs) ->
  (0 <? o_ext (obj s p))%nat = true /\ exists s2 ok, init_object_id (with_pend s (drop_nth k (pend s))) p id = (ok, s2) /\
  (if ok then s1 = upd_obj s2 old more /\ evs = [EvTake p old id] else s1 = with_pend s2 (pend s2 ++ [FInv [old]]) /\ evs = [EvKeep p id]).
Proof.
  intros V NT ST. cbn [pstep] in ST. rewrite NT in ST. destruct (0 <? o_ext (obj s p))%nat eqn:E; [|discriminate]. split; [reflexivity|].
  destruct (init_object_id _ p id) as [ok s2]. exists s2, ok. split; [reflexivity|]. destruct ok; inversion ST; auto.
Qed.

Theorem C44_restored reuse start max al s0 tr k p old id s1 : psteps reuse (new_pool start max) al = Some (s0, tr) ->
  nth_error (pend s0) k = Some (FChg p old id) -> In p (valid s0) -> pstep reuse s0 (PChange2 k) = Some (s1, [EvTake p old id]) ->
  (* id was not in use by another valid object and belonged to the old object *)
  (find_object s0 id = None \/ find_object s0 id = Some p) /\ o_id (obj s1 old) = id /\
  (* exactly p is registered under id, its previous id is gone *)
  find_object s1 id = Some p /\ o_id (obj s1 p) = id /\ (o_id (obj s0 p) <> id -> find_object s1 (o_id (obj s0 p)) = None) /\
  (* the old object left the pool *)
  ~ In old (kept s1) /\
  (* nothing else changed *)
  (forall q j, q <> p -> (find_object s1 j = Some q <-> find_object s0 j = Some q)) /\ inv s1 = inv s0.
Proof.
  intros R NT IV ST. assert (V : pinv s0) by (exact (pinv_psteps _ _ _ _ _ R (pinv_new _ _))). pose proof (pinv_pstep _ _ _ _ _ ST V) as V1.
  destruct (chg_spec _ _ _ _ _ _ _ _ V NT ST) as (E & s2 & ok & IN & RES). destruct ok; [|destruct RES; discriminate]. destruct RES as (-> & _).
  pose proof (ext_in s0 p E) as L. set (sp := with_pend s0 (drop_nth k (pend s0))) in *. assert (K0 : keyed sp) by apply V.
  destruct (init_spec sp _ _ _ _ K0 L IN) as (J1 & J2 & _ & _ & J5 & J6 & J7 & _ & J9 & _ & J11 & J12).
  change (inv sp) with (inv s0) in *. change (obj sp) with (obj s0) in *. change (can sp) with (can s0) in *. change (pend sp) with (drop_nth k (pend s0)) in *.
  assert (CO : In (FChg p old id) (pend s0)) by (eapply nth_error_In; exact NT).
  destruct (i_pop _ V _ _ _ CO) as (P1 & P2 & P3 & P4 & P5). assert (NE : old <> p) by (intros ->; rewrite P2 in E; discriminate).
  pose proof (i_key _ V) as K. apply (keyed_valid s0 p K) in IV as IC.
  assert (U : forall q, o_id (obj (upd_obj s2 old more) q) = o_id (obj s2 q)) by (intros q; apply id_upd; reflexivity).
  unfold find_object in *. change (can (upd_obj s2 old more)) with (can s2). change (inv (upd_obj s2 old more)) with (inv s2). rewrite !U. rewrite (J6 _ NE), (J9 eq_refl).
  assert (CS : forall j q, In (j, q) (can s2) <-> (q <> p /\ In (j, q) (can s0)) \/ (q = p /\ j = id)).
  { intros j q. destruct J11 as [(J & ->)|[J|(J & _ & C)]]; [|discriminate|].
    - change (can sp) with (can s0). split.
      + intros C. destruct (Nat.eq_dec q p) as [->|]; [right; split; [reflexivity|]; rewrite <- (keyed_id s0 p j K C); exact J|auto].
      + intros [(_ & C)|(-> & ->)]; [exact C|]. rewrite <- J. exact IC.
    - rewrite C, in_app_iff, erase_In. cbn [In fst]. split.
      + intros [(C1 & C2)|[C1|[]]]; [left; split; [|exact C1]; intros ->; apply C2; symmetry; exact (keyed_id s0 p j K C1)|inversion C1; auto].
      + intros [(C1 & C2)|(-> & ->)]; [|right; left; reflexivity]. left. split; [exact C2|]. intros ->. apply C1.
        assert (H1 : lookup (o_id (obj s0 p)) (can s0) = Some q) by (apply In_lookup; [apply K|exact C2]). rewrite (In_lookup _ _ _ (proj1 K) IC) in H1. congruence. }
  split; [|split; [exact P1|split; [|split; [reflexivity|split; [|split; [|split]]]]]].
  - destruct J11 as [(J & _)|[J|(_ & J & _)]]; [|discriminate|left; apply lookup_None; exact J]. right. rewrite <- J. apply In_lookup; [apply K|exact IC].
  - apply In_lookup; [apply J12|]. apply CS. auto.
  - intros ND. destruct (lookup (o_id (obj s0 p)) (can s2)) as [q|] eqn:LK; [|reflexivity]. apply lookup_In in LK. apply CS in LK. destruct LK as [(Q1 & Q2)|(_ & Q)]; [|congruence].
    exfalso. apply Q1. assert (H1 : lookup (o_id (obj s0 p)) (can s0) = Some q) by (apply In_lookup; [apply K|exact Q2]). rewrite (In_lookup _ _ _ (proj1 K) IC) in H1. congruence.
  - unfold kept. change (valid (upd_obj s2 old more)) with (valid s2). change (inv (upd_obj s2 old more)) with (inv s2). change (pend (upd_obj s2 old more)) with (pend s2). rewrite J1, J2, !in_app_iff.
    intros [X|[X|X]]; [|contradiction|].
    + apply valid_In in X. destruct X as (j & X). apply CS in X. destruct X as [(_ & X)|(X & _)]; [|congruence]. apply P3. apply valid_In. eauto.
    + pose proof (perm_count old _ _ (drop_nth_concat _ _ _ NT)) as C. rewrite count_app in C. cbn [frame_ptrs] in C. rewrite count_cons, Nat.eqb_refl in C. apply count_In in X. lia.
  - intros q j NQ. split; intros LK; apply lookup_In in LK; apply In_lookup; [apply K| |apply J12|]; [apply CS in LK; tauto|apply CS; auto].
  - exact J1.
Qed.
Print Assumptions C44_restored.

(** A failed attempt leaves the valid objects as they were and puts the old object back. *)
Theorem C44_refused reuse start max al s0 tr k p old id s1 : psteps reuse (new_pool start max) al = Some (s0, tr) ->
  nth_error (pend s0) k = Some (FChg p old id) -> pstep reuse s0 (PChange2 k) = Some (s1, [EvKeep p id]) ->
  can s1 = can s0 /\ Permutation (kept s1) (kept s0) /\ (exists q, find_object s0 id = Some q) /\ (forall q, obj s1 q = obj s0 q).
Proof.
  intros R NT ST. assert (V : pinv s0) by (exact (pinv_psteps _ _ _ _ _ R (pinv_new _ _))).
  destruct (chg_spec _ _ _ _ _ _ _ _ V NT ST) as (E & s2 & ok & IN & RES). destruct ok; [destruct RES; discriminate|]. destruct RES as (-> & _).
  pose proof (ext_in s0 p E) as L. set (sp := with_pend s0 (drop_nth k (pend s0))) in *. assert (K0 : keyed sp) by apply V.
  destruct (init_spec sp _ _ _ _ K0 L IN) as (_ & _ & _ & _ & _ & _ & _ & _ & _ & J10 & _). destruct (J10 eq_refl) as (-> & J). split; [reflexivity|]. split; [|split; [|reflexivity]].
  - unfold kept, valid. cbn [sp with_pend can inv pend]. rewrite concat_app1. cbn [frame_ptrs]. pose proof (drop_nth_concat _ _ _ NT) as C. apply by_count. intros x. rewrite !count_app. apply (perm_count x) in C.
    rewrite count_app in C. cbn [frame_ptrs] in C. lia.
  - unfold find_object. destruct (lookup id (can s0)) as [q|] eqn:LK; [eauto|]. apply lookup_None in LK. contradiction.
Qed.
Print Assumptions C44_refused.

(** restore_socket(p, id, true) *)
Theorem C44_init reuse start max al s0 tr p id s1 ok : psteps reuse (new_pool start max) al = Some (s0, tr) -> In p (valid s0) ->
  pstep reuse s0 (PInit p id) = Some (s1, [EvInit p id ok]) ->
  (ok = true <-> find_object s0 id = None \/ find_object s0 id = Some p) /\ (ok = false -> s1 = s0) /\
  (ok = true -> find_object s1 id = Some p /\ o_id (obj s1 p) = id /\ (o_id (obj s0 p) <> id -> find_object s1 (o_id (obj s0 p)) = None)).
Proof.
  intros R IV ST. assert (V : pinv s0) by (exact (pinv_psteps _ _ _ _ _ R (pinv_new _ _))). cbn [pstep] in ST.
  destruct (0 <? o_ext (obj s0 p))%nat eqn:E; [|discriminate]. destruct (init_object_id s0 p id) as [b s2] eqn:IN. inversion ST; subst. clear ST.
  pose proof (i_key _ V) as K. pose proof (ext_in s0 p E) as L. apply (keyed_valid s0 p K) in IV as IC.
  destruct (init_spec s0 _ _ _ _ K L IN) as (_ & _ & _ & _ & _ & _ & _ & _ & J9 & J10 & J11 & J12). unfold find_object in *.
  split; [|split; [intros ->; apply J10; reflexivity|]].
  - split.
    + intros ->. destruct J11 as [(J & _)|[J|(_ & J & _)]]; [|discriminate|left; apply lookup_None; exact J]. right. rewrite <- J. apply In_lookup; [apply K|exact IC].
    + intros H. destruct ok; [reflexivity|]. exfalso. destruct (J10 eq_refl) as (_ & J). destruct H as [H|H]; [apply lookup_None in H; contradiction|].
      apply lookup_In in H. apply (keyed_id s0 p id K) in H. unfold init_object_id in IN. rewrite H, N.eqb_refl in IN. discriminate.
  - intros ->. split; [|split; [auto|]].
    + apply In_lookup; [apply J12|]. destruct J11 as [(J & ->)|[J|(_ & _ & C)]]; [rewrite <- J; exact IC|discriminate|]. rewrite C. apply in_or_app. right. left. reflexivity.
    + intros ND. destruct J11 as [(J & _)|[J|(_ & _ & C)]]; [contradiction|discriminate|]. apply lookup_None. rewrite C, map_app, in_app_iff. cbn [map fst In]. intros [X|[X|[]]]; [|congruence].
      apply in_map_iff in X. destruct X as (e & X1 & X2). apply erase_In in X2. tauto.
Qed.
Print Assumptions C44_init.
Example C44_example : exists s tr s1, psteps true (new_pool 100 5) [PCreate; PCreate; PAdd 0; PAdd 1; PObs 0 true; PDel 0; PPush 0; PDrop 0; PChange 1 100] = Some (s, tr) /\
  nth_error (pend s) 0 = Some (FChg 1 0 100) /\ valid s = [1]%nat /\ pstep true s (PChange2 0) = Some (s1, [EvTake 1 0 100]).
Proof. do 3 eexists. split; [vm_compute; reflexivity|]. split; [vm_compute; reflexivity|]. split; vm_compute; reflexivity. Qed.
(** id 100 was taken by another valid object meanwhile *)
Example C44_refused_example : exists s tr s1, psteps true (new_pool 100 5)
  [PCreate; PCreate; PCreate; PAdd 0; PAdd 1; PAdd 2; PObs 0 true; PDel 0; PPush 0; PDrop 0; PChange 1 100; PInit 2 100] = Some (s, tr) /\
  nth_error (pend s) 0 = Some (FChg 1 0 100) /\ pstep true s (PChange2 0) = Some (s1, [EvKeep 1 100]).
Proof. do 3 eexists. split; [vm_compute; reflexivity|]. split; vm_compute; reflexivity. Qed.
Example C44_init_example : exists s tr s1, psteps false (new_pool 100 5) [PCreate; PCreate; PAdd 0; PAdd 1] = Some (s, tr) /\
  valid s = [0; 1]%nat /\ pstep false s (PInit 1 7) = Some (s1, [EvInit 1 7 true]).
Proof. do 3 eexists. split; [vm_compute; reflexivity|]. split; vm_compute; reflexivity. Qed.

(** the first part of restore_socket(p, id, false): an abandoned object with this id is taken out only if nobody else holds it; otherwise nothing changes and the
    object keeps its own id *)
Definition first_with (s : pool) (id : N) (q : nat) (l1 l2 : list nat) : Prop := inv s = l1 ++ q :: l2 /\ o_id (obj s q) = id /\ Forall (fun x => o_id (obj s x) <> id) l1.
Lemma pop_id_spec s id : forall l, match pop_id s id l with
  | Some (q, r) => exists l1 l2, l = l1 ++ q :: l2 /\ r = l1 ++ l2 /\ o_id (obj s q) = id /\ idle s q = true /\ Forall (fun x => o_id (obj s x) <> id) l1
  | None => Forall (fun x => o_id (obj s x) <> id) l \/ exists l1 q l2, l = l1 ++ q :: l2 /\ o_id (obj s q) = id /\ idle s q = false /\ Forall (fun x => o_id (obj s x) <> id) l1
  end.
Proof.
  induction l as [|p l IH]; cbn [pop_id]; [left; constructor|]. destruct (N.eqb_spec (o_id (obj s p)) id) as [E|E].
  - destruct (idle s p) eqn:I; [exists [], l|right; exists [], p, l]; auto 6.
  - destruct (pop_id s id l) as [(q, r)|].
    + destruct IH as (l1 & l2 & -> & -> & A & B & D). exists (p :: l1), l2. auto 7.
    + destruct IH as [IH|(l1 & q & l2 & -> & A & B & D)]; [left; auto|right; exists (p :: l1), q, l2; auto 7].
Qed.
Theorem C44_absent reuse s0 p id s1 evs : pstep reuse s0 (PChange p id) = Some (s1, evs) ->
  (evs = [EvKeep p id] /\ s1 = s0 /\ forall q l1 l2, first_with s0 id q l1 l2 -> idle s0 q = false) \/
  (evs = [] /\ exists q l1 l2, first_with s0 id q l1 l2 /\ idle s0 q = true /\ inv s1 = l1 ++ l2 /\ pend s1 = pend s0 ++ [FChg p q id] /\ can s1 = can s0).
Proof.
  intros H. cbn [pstep] in H. destruct (0 <? o_ext (obj s0 p))%nat; [|discriminate H]. pose proof (pop_id_spec s0 id (inv s0)) as P.
  destruct (pop_id s0 id (inv s0)) as [(q, r)|].
  - right. destruct P as (l1 & l2 & A & -> & B & D & E). inversion H; subst. split; [reflexivity|]. exists q, l1, l2. unfold first_with. auto 8.
  - left. inversion H; subst. split; [reflexivity|]. split; [reflexivity|]. intros q l1 l2 (A & B & D). destruct P as [P|(m1 & x & m2 & A' & B' & I & D')].
    + rewrite A in P. apply Forall_app in P. destruct P as [_ P]. inversion P; subst. contradiction.
    + assert (l1 = m1 /\ q = x) as [_ ->]; [|exact I]. rewrite A in A'. clear A H. revert m1 A' D'. induction l1 as [|y l1 IH]; intros [|z m1] A' D'; cbn in A'; inversion A'; subst.
      * auto.
      * exfalso. inversion D'; subst. auto.
      * exfalso. inversion D; subst. auto.
      * inversion D; inversion D'; subst. match goal with X : l1 ++ _ = m1 ++ _ |- _ => destruct (IH ltac:(assumption) m1 X ltac:(assumption)) as [-> ->] end. auto.
Qed.
Print Assumptions C44_absent.
Example C44_absent_example : exists s tr s1 s2, psteps true (new_pool 100 5) [PCreate; PCreate; PAdd 0; PAdd 1; PObs 0 true; PDel 0; PPush 0] = Some (s, tr) /\
  pstep true s (PChange 1 100) = Some (s1, [EvKeep 1 100]) /\ idle s 0 = false /\ pstep true s (PChange 1 5) = Some (s2, [EvKeep 1 5]) /\ inv s = [0]%nat.
Proof. do 4 eexists. split; [vm_compute; reflexivity|]. repeat split; vm_compute; reflexivity. Qed.

(** ** C67: the number of valid objects never exceeds max_size *)
Definition C67_statement : Prop := forall reuse start max al s tr,
  psteps reuse (new_pool start max) al = Some (s, tr) -> N.of_nat (length (valid s)) <= max.
(** False: restoring a socket that was not added (e.g. from on_accept) inserts it whatever the size. *)
Theorem C67_refuted : exists al s tr, psteps false (new_pool 0 1) al = Some (s, tr) /\ valid s = [0; 1]%nat.
Proof. exists [PCreate; PAdd 0; PCreate; PAdd 1; PInit 1 9]. run_it. Qed.
Print Assumptions C67_refuted.
Theorem C67_statement_refuted : ~ C67_statement.
Proof. intros H. destruct C67_refuted as (al & s & tr & R & E). specialize (H _ _ _ _ _ _ R). rewrite E in H. cbn in H. lia. Qed.
Print Assumptions C67_statement_refuted.
Theorem C67_capacity_partial reuse start max al s tr : psteps reuse (new_pool start max) al = Some (s, tr) -> careful_run reuse (new_pool start max) al ->
  N.of_nat (length (valid s)) <= max.
Proof.
  intros R C. destruct (conserve _ _ _ _ _ (pinv_new _ _) C R) as (_ & C2 & C3 & _). unfold valid. rewrite map_length. change max with (max_size (new_pool start max)). rewrite <- C3. apply C2. cbn. lia.
Qed.
Print Assumptions C67_capacity_partial.

(** ** C68: the pool keeps each object given to it exactly once until it is reused, taken over or freed *)
Definition C68_statement : Prop := forall reuse start max al s tr,
  psteps reuse (new_pool start max) al = Some (s, tr) -> NoDup (kept s) /\ Permutation (kept s ++ left tr) (entered tr).
(** False: with two objects of the same id, deleting the invalid one (0) again drops the valid one (1) - nobody
    keeps it although it is in use - and lists 0 twice, so that it is never freed or reused. *)
Theorem C68_refuted : exists al s tr, psteps false (new_pool 0 5) al = Some (s, tr) /\
  entered tr = [0; 1]%nat /\ left tr = [] /\ kept s = [0; 0]%nat /\ refs s 1 = 0%nat /\ o_obs (obj s 1) = false.
Proof.
  exists [PCreate; PCreate; PAdd 0; PAdd 1; PObs 0 true; PDel 0; PPush 0; PInit 1 0; PDrop 1; PDel 0; PPush 0; PDrop 0; PFree 10]. run_it.
Qed.
Print Assumptions C68_refuted.
Theorem C68_statement_refuted : ~ C68_statement.
Proof.
  intros H. destruct C68_refuted as (al & s & tr & R & E1 & E2 & E3 & _). destruct (H _ _ _ _ _ _ R) as (N1 & _). rewrite E3 in N1. inversion N1; subst. apply H2. left. reflexivity.
Qed.
Print Assumptions C68_statement_refuted.
Theorem C68_conserved_partial reuse start max al s tr : psteps reuse (new_pool start max) al = Some (s, tr) -> careful_run reuse (new_pool start max) al ->
  NoDup (kept s) /\ Permutation (kept s ++ left tr) (entered tr).
Proof. intros R C. destruct (conserve _ _ _ _ _ (pinv_new _ _) C R) as (C1 & _ & _ & C4). split; [apply C4; constructor|exact C1]. Qed.
Print Assumptions C68_conserved_partial.

(** deleting, clearing, restoring and freeing within the discipline *)
Definition ex_careful : list pact :=
  [PCreate; PCreate; PCreate; PAdd 0; PAdd 1; PAdd 2; PObs 0 true; PDel 0; PPush 0; PDrop 0; PChange 1 0; PChange2 0; PObs 2 true; PClear; PPush 0; PDrop 2; PFree 5].
Local Ltac careful_it :=
  repeat match goal with
  | |- True => exact I
  | |- _ /\ _ => split
  | |- careful_run _ _ (_ :: _) => cbn [careful_run]
  | |- careful_run _ _ [] => exact I
  | |- match pstep _ _ _ with _ => _ end => let x := fresh "x" in match goal with |- match ?p with _ => _ end => set (x := p) end; vm_compute in x; subst x; cbv iota
  | |- careful _ _ => vm_compute; intuition (try congruence; try discriminate)
  end.
Example C68_example : exists s tr, psteps false (new_pool 0 3) ex_careful = Some (s, tr) /\ careful_run false (new_pool 0 3) ex_careful /\
  kept s = [1]%nat /\ left tr = [0; 2]%nat /\ entered tr = [0; 1; 2]%nat.
Proof.
  do 2 eexists. split; [vm_compute; reflexivity|]. split; [unfold ex_careful; careful_it|repeat split; vm_compute; reflexivity].
  all: subst; cbv iota in *; congruence.
Qed.

(** ** C69: adding, deleting, clearing and freeing do what they report *)
Lemma lookup_app_new id p c j : ~ In id (map fst c) -> lookup j (c ++ [(id, p)]) = if j =? id then Some p else lookup j c.
Proof.
  intros N0. unfold lookup. induction c as [|[k q] c IH]; cbn [app find fst].
  - rewrite (N.eqb_sym id). destruct (j =? id); reflexivity.
  - cbn [map fst In] in N0. destruct (N.eqb_spec k j) as [->|].
    + destruct (N.eqb_spec j id) as [->|]; [exfalso; auto|reflexivity].
    + apply IH. auto.
Qed.
Lemma lookup_erase id c j : lookup j (erase id c) = if j =? id then None else lookup j c.
Proof.
  unfold lookup, erase. induction c as [|[k q] c IH]; cbn [filter find fst]; [destruct (j =? id); reflexivity|].
  destruct (N.eqb_spec k id) as [->|]; cbn [negb find fst].
  - rewrite IH. destruct (N.eqb_spec j id) as [E|NE]; [reflexivity|]. destruct (N.eqb_spec id j); [congruence|reflexivity].
  - destruct (N.eqb_spec k j) as [E|NE]; [subst k; destruct (N.eqb_spec j id); [contradiction|reflexivity]|exact IH].
Qed.

Theorem C69_add reuse s p s1 evs : pstep reuse s (PAdd p) = Some (s1, evs) -> exists ok, evs = [EvAdd p ok] /\
  (ok = true <-> find_object s (o_id (obj s p)) = None /\ N.of_nat (length (valid s)) < max_size s) /\
  (ok = false -> s1 = s) /\
  (ok = true -> (forall j, find_object s1 j = if j =? o_id (obj s p) then Some p else find_object s j) /\ inv s1 = inv s /\ forall q, obj s1 q = obj s q).
Proof.
  intros ST. cbn [pstep] in ST. unfold find_object, valid. rewrite map_length. destruct (0 <? _)%nat; [|discriminate].
  destruct (lookup _ _) eqn:LK; [inversion ST; subst; eexists; split; [reflexivity|]; split; [intuition discriminate|split; [auto|discriminate]]|].
  destruct (N.ltb_spec (N.of_nat (length (can s))) (max_size s)); inversion ST; subst; eexists; (split; [reflexivity|]).
  - split; [intuition|]. split; [discriminate|]. intros _. split; [|split; reflexivity]. intros j. apply lookup_app_new. apply lookup_None. exact LK.
  - split; [split; [discriminate|intros (_ & X); lia]|]. split; [auto|discriminate].
Qed.
Print Assumptions C69_add.

Theorem C69_delete_by_id reuse s id : exists s1 ok, pstep reuse s (PDelId id) = Some (s1, [EvDel ok]) /\
  (ok = true <-> exists p, find_object s id = Some p) /\ (ok = false -> s1 = s) /\
  (ok = true -> (forall j, find_object s1 j = if j =? id then None else find_object s j) /\ inv s1 = inv s /\
    exists p, find_object s id = Some p /\ pend s1 = pend s ++ [FInv [p]]).
Proof.
  cbn [pstep]. unfold find_object. destruct (lookup id (can s)) as [p|] eqn:LK; do 2 eexists; (split; [reflexivity|]).
  - split; [split; [eauto|reflexivity]|]. split; [discriminate|]. intros _. split; [intros j; apply lookup_erase|]. split; [reflexivity|]. eauto.
  - split; [split; [discriminate|intros (? & ?); discriminate]|]. split; [auto|discriminate].
Qed.
Print Assumptions C69_delete_by_id.

(** deleting an object whose id no valid object has *)
Theorem C69_delete_absent reuse s p s1 evs : find_object s (o_id (obj s p)) = None -> pstep reuse s (PDel p) = Some (s1, evs) -> evs = [EvDel false] /\ s1 = s.
Proof. intros F ST. unfold find_object in F. cbn [pstep] in ST. destruct (0 <? _)%nat; [|discriminate]. rewrite F in ST. inversion ST; subst. auto. Qed.
Print Assumptions C69_delete_absent.

(** deleting a valid object by pointer *)
Theorem C69_delete reuse start max al s tr p s1 evs : psteps reuse (new_pool start max) al = Some (s, tr) -> In p (valid s) ->
  pstep reuse s (PDel p) = Some (s1, evs) ->
  evs = [EvDel true] /\ ~ In p (valid s1) /\ (forall j q, find_object s1 j = Some q <-> find_object s j = Some q /\ q <> p) /\
  inv s1 = inv s /\ pend s1 = pend s ++ [FInv [p]].
Proof.
  intros R IV ST. pose proof (i_key _ (pinv_psteps _ _ _ _ _ R (pinv_new _ _))) as K. pose proof (proj1 (keyed_valid s p K) IV) as IC.
  pose proof (In_lookup _ _ _ (proj1 K) IC) as LK. cbn [pstep] in ST. destruct (0 <? _)%nat; [|discriminate]. rewrite LK in ST. inversion ST; subst. clear ST.
  assert (F : forall j q, find_object (with_pend (with_can s (erase (o_id (obj s p)) (can s))) (pend s ++ [FInv [p]])) j = Some q <-> find_object s j = Some q /\ q <> p).
  { intros j q. unfold find_object. cbn [with_pend with_can can]. rewrite lookup_erase. destruct (N.eqb_spec j (o_id (obj s p))) as [->|NE].
    - rewrite LK. split; [discriminate|]. intros (E & N0). congruence.
    - split; [|tauto]. intros E. split; [exact E|]. intros ->. apply NE. apply lookup_In in E. symmetry. exact (keyed_id s p j K E). }
  split; [reflexivity|]. split; [|split; [exact F|split; reflexivity]].
  intros X. apply valid_In in X. destruct X as (j & X). cbn [with_pend with_can can] in X. apply erase_In in X. cbn [fst] in X. destruct X as (X1 & X2). apply X2. symmetry. exact (keyed_id s p j K X1).
Qed.
Print Assumptions C69_delete.

(** clearing takes exactly the obsolete objects out *)
Theorem C69_clear reuse start max al s tr s1 evs : psteps reuse (new_pool start max) al = Some (s, tr) -> pstep reuse s PClear = Some (s1, evs) ->
  (forall j p, find_object s1 j = Some p <-> find_object s j = Some p /\ o_obs (obj s p) = false) /\ Permutation (kept s1) (kept s).
Proof.
  intros R ST. pose proof (i_key _ (pinv_psteps _ _ _ _ _ R (pinv_new _ _))) as K. cbn [pstep] in ST.
  set (g := filter (fun e => o_obs (obj s (snd e))) (can s)) in *. set (r := filter (fun e => negb (o_obs (obj s (snd e)))) (can s)) in *.
  assert (F : forall j p, lookup j r = Some p <-> lookup j (can s) = Some p /\ o_obs (obj s p) = false).
  { intros j p. split.
    - intros E. apply lookup_In in E. apply filter_In in E. cbn [snd] in E. destruct E as (E1 & E2). split; [apply In_lookup; [apply K|exact E1]|]. destruct (o_obs (obj s p)); [discriminate|reflexivity].
    - intros (E1 & E2). apply lookup_In in E1. apply In_lookup.
      + destruct K as (ND & _). subst r. clear - ND. induction (can s) as [|e c IH]; [constructor|]. cbn [map filter] in *. inversion ND as [|? ? N1 N2]; subst.
        destruct (negb _); cbn [map]; [|auto]. constructor; [|auto]. intros X. apply N1. apply in_map_iff in X. destruct X as (e' & <- & X). apply filter_In in X. apply in_map. tauto.
      + apply filter_In. split; [exact E1|]. cbn [snd]. rewrite E2. reflexivity. }
  assert (PM : Permutation (map snd g ++ map snd r) (map snd (can s))).
  { subst g r. clear. induction (can s) as [|e c IH]; [constructor|]. cbn [filter map]. destruct (o_obs (obj s (snd e))); cbn [negb map app]; [constructor; exact IH|].
    etransitivity; [symmetry; apply Permutation_middle|]. constructor. exact IH. }
  unfold find_object. destruct g as [|e g'] eqn:G.
  - inversion ST; subst. split; [|reflexivity]. intros j p. split; [|tauto]. intros E. split; [exact E|]. apply lookup_In in E. destruct (o_obs (obj s1 p)) eqn:O; [|reflexivity].
    exfalso. assert (X : In (j, p) (filter (fun e => o_obs (obj s1 (snd e))) (can s1))) by (apply filter_In; split; [exact E|exact O]). fold g in X. rewrite G in X. contradiction.
  - inversion ST; subst. split; [exact F|]. unfold kept, valid. cbn [with_pend with_can can inv pend]. rewrite concat_app1. cbn [frame_ptrs].
    apply by_count. intros x. rewrite !count_app. pose proof (perm_count x _ _ PM) as C. rewrite count_app in C. cbn [map] in C. lia.
Qed.
Print Assumptions C69_clear.

(** freeing takes exactly the first num idle objects of the invalid ones *)
Theorem C69_free reuse s num s1 evs : pstep reuse s (PFree num) = Some (s1, evs) ->
  exists freed, evs = map EvFree freed /\ freed = firstn (N.to_nat num) (filter (idle s) (inv s)) /\ Permutation (freed ++ inv s1) (inv s) /\ valid s1 = valid s /\ pend s1 = pend s.
Proof.
  intros ST. cbn [pstep] in ST. destruct (free_loop s num (inv s)) as [freed l] eqn:FL. inversion ST; subst. exists freed. split; [reflexivity|].
  destruct (free_loop_spec _ _ _ _ _ FL) as (_ & PM). split; [|split; [symmetry; exact PM|split; reflexivity]]. clear - FL. revert num freed l FL.
  induction (inv s) as [|p c IH]; intros num freed l FL; cbn [free_loop] in FL; [inversion FL; subst; destruct (N.to_nat num); reflexivity|]. cbn [filter].
  destruct (idle s p); destruct (N.ltb_spec 0 num); cbn [andb] in FL; destruct (free_loop s _ c) as [x y] eqn:E; inversion FL; subst; rewrite (IH _ _ _ E).
  - replace (N.to_nat num) with (S (N.to_nat (num - 1))) by lia. reflexivity.
  - replace num with 0 by lia. reflexivity.
  - reflexivity.
  - reflexivity.
Qed.
Print Assumptions C69_free.
Example C69_example : exists s tr, psteps false (new_pool 0 2) [PCreate; PCreate; PCreate; PAdd 0; PAdd 1; PAdd 2; PDelId 1; PPush 0; PObs 0 true; PClear; PPush 0; PAdd 2; PDel 2; PDel 2; PDelId 7; PObs 1 true; PDrop 0; PDrop 1; PFree 1; PFree 5] = Some (s, tr) /\
  tr = [EvNew 0 0; EvNew 1 1; EvNew 2 2; EvAdd 0 true; EvAdd 1 true; EvAdd 2 false; EvDel true; EvAdd 2 true; EvDel true; EvDel false; EvDel false; EvFree 1; EvFree 0].
Proof. run_it. Qed.
