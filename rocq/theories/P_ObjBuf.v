(** Properties of buffers on the heap and of the packer and unpackers that use them (C124-C126). *)
From Coq Require Import List NArith Arith Bool Lia Permutation.
From Verif Require Import M_Bytes M_Config M_Packer M_ObjBuf S_ObjBuf.
From Verif Require L_Bytes L_Frame L_Packer.
Import ListNotations.
Open Scope nat_scope.

(** ** lists *)
Lemma set_len {A} : forall (l : list A) k x, length (set_nth k x l) = length l.
Proof. induction l as [|a l IH]; intros [|k] x; cbn; auto. Qed.
Lemma set_eq {A} : forall (l : list A) k x, k < length l -> nth_error (set_nth k x l) k = Some x.
Proof. induction l as [|a l IH]; intros [|k] x H; cbn in *; try lia; [reflexivity | apply IH; lia]. Qed.
Lemma set_neq {A} : forall (l : list A) k j x, j <> k -> nth_error (set_nth k x l) j = nth_error l j.
Proof. induction l as [|a l IH]; intros [|k] [|j] x H; cbn; try reflexivity; try congruence. apply IH. congruence. Qed.
Lemma set_place {A} : forall (l : list A) k x, k < length l -> set_nth k x l = place k x l.
Proof. unfold place. induction l as [|a l IH]; intros [|k] x H; cbn in *; try lia; [reflexivity|]. rewrite IH by lia. reflexivity. Qed.
Lemma nth_len {A} : forall (l : list A) k x, nth_error l k = Some x -> k < length l.
Proof. intros l k x H. apply nth_error_Some. congruence. Qed.
Lemma set_map {A B} (f : A -> B) : forall l k x, map f (set_nth k x l) = set_nth k (f x) (map f l).
Proof. induction l as [|a l IH]; intros [|k] x; cbn; auto. rewrite IH. reflexivity. Qed.

(** ** the heap and who holds what *)
Definition roots (l : list (option nat)) : list nat := flat_map (fun x => match x with Some o => [o] | None => [] end) l.
Definition opt (x : option nat) : list nat := match x with Some o => [o] | None => [] end.
Lemma roots_set : forall l k x y, nth_error l k = Some x -> Permutation (opt x ++ roots (set_nth k y l)) (opt y ++ roots l).
Proof.
  induction l as [|a l IH]; intros [|k] x y H; try discriminate.
  - injection H as ->. cbn [set_nth]. change (roots (y :: l)) with (opt y ++ roots l). change (roots (x :: l)) with (opt x ++ roots l). apply Permutation_app_swap_app.
  - cbn in H. specialize (IH k x y H). cbn [set_nth]. change (roots (a :: set_nth k y l)) with (opt a ++ roots (set_nth k y l)). change (roots (a :: l)) with (opt a ++ roots l).
    eapply Permutation_trans; [apply Permutation_app_swap_app|]. eapply Permutation_trans; [apply Permutation_app_head; exact IH|]. apply Permutation_app_swap_app.
Qed.
Lemma roots_app : forall a b, roots (a ++ b) = roots a ++ roots b.
Proof. intros. apply flat_map_app. Qed.
Lemma roots_in : forall l o, In o (roots l) <-> In (Some o) l.
Proof. induction l as [|[x|] l IH]; intro o; cbn; [tauto | |]; rewrite IH; intuition congruence. Qed.

Definition cnt (r : list nat) (o : nat) : nat := count_occ Nat.eq_dec r o.
Record J (k : kind) (h : list cell) (r : list nat) (t : list ev) : Prop := mk_J {
  j_cell : forall o c, nth_error h o = Some c -> (c_live c = true <-> 0 < cnt r o) /\ (k = Unique -> cnt r o <= 1) /\ (k = Shared -> c_live c = true -> c_refs c = cnt r o) /\ (In o (frees t) <-> c_live c = false);
  j_out : forall o, length h <= o -> cnt r o = 0 /\ ~ In o (frees t);
  j_once : NoDup (frees t);
  j_news : forall o, In o (news t) <-> o < length h
}.
Lemma J_perm : forall k h r r' t, Permutation r r' -> J k h r t -> J k h r' t.
Proof.
  intros k h r r' t P [A B C D]. assert (E : forall o, cnt r' o = cnt r o) by (intro o; apply Permutation_count_occ with (eq_dec := Nat.eq_dec); symmetry; exact P).
  constructor; [| |exact C | exact D]; intros o; rewrite E; auto.
Qed.
Lemma frees_app a b : frees (a ++ b) = frees a ++ frees b.
Proof. apply flat_map_app. Qed.
Lemma news_app a b : news (a ++ b) = news a ++ news b.
Proof. apply flat_map_app. Qed.
Lemma cnt_cons : forall r o x, cnt (x :: r) o = (if Nat.eq_dec x o then 1 else 0) + cnt r o.
Proof. intros. unfold cnt. cbn. destruct (Nat.eq_dec x o); reflexivity. Qed.
Lemma nodup_snoc : forall (l : list nat) x, NoDup l -> ~ In x l -> NoDup (l ++ [x]).
Proof. induction l as [|a l IH]; intros x N I; cbn; [constructor; [tauto | constructor]|]. inversion N; subst. constructor; [rewrite in_app_iff; cbn; cbn in I; intuition congruence | apply IH; [assumption | cbn in I; tauto]]. Qed.

Lemma J_release : forall k h r t o, J k h (o :: r) t -> exists h' e, release k h o = Done h' e /\ J k h' r (t ++ e) /\ length h' = length h /\ (forall j c, nth_error h' j = Some c -> exists c0, nth_error h j = Some c0 /\ c_bytes c = c_bytes c0) /\ news e = [].
Proof.
  intros k h r t o JJ. pose proof JJ as [A B C D].
  assert (L : o < length h). { destruct (le_lt_dec (length h) o) as [H|H]; [|exact H]. destruct (B o H) as [H1 _]. rewrite cnt_cons in H1. destruct (Nat.eq_dec o o); [discriminate | congruence]. }
  destruct (nth_error h o) as [c|] eqn:E; [|apply nth_error_None in E; lia]. destruct (A o c E) as (A1 & A2 & A3 & A4).
  assert (K : cnt (o :: r) o = S (cnt r o)) by (rewrite cnt_cons; destruct (Nat.eq_dec o o); [reflexivity | congruence]).
  assert (LV : c_live c = true) by (apply A1; lia). unfold release. rewrite E, LV. cbn [negb].
  assert (BY : forall x, c_bytes x = c_bytes c -> forall j d, nth_error (set_nth o x h) j = Some d -> exists c0, nth_error h j = Some c0 /\ c_bytes d = c_bytes c0).
  { intros x X j d Hd. destruct (Nat.eq_dec j o) as [->|N]; [rewrite set_eq in Hd by exact L; injection Hd as <-; exists c; auto | rewrite set_neq in Hd by exact N; exists d; auto]. }
  assert (FREE : cnt r o = 0 -> J k (set_nth o (mk_cell (c_bytes c) 0 false) h) r (t ++ [EFree o])).
  { intro Z. constructor.
    - intros j d Hd. rewrite frees_app. cbn [frees flat_map app]. rewrite in_app_iff. cbn [In]. destruct (Nat.eq_dec j o) as [->|N].
      + rewrite set_eq in Hd by exact L. injection Hd as <-. cbn. rewrite Z. repeat split; intros; try lia; try discriminate; auto.
      + rewrite set_neq in Hd by exact N. destruct (A j d Hd) as (Q1 & Q2 & Q3 & Q4). rewrite cnt_cons in *. destruct (Nat.eq_dec o j); [congruence|]. cbn in *. repeat split; try tauto.
    - intros j H. rewrite set_len in H. destruct (B j H) as [Q1 Q2]. rewrite cnt_cons in Q1. split; [lia|]. rewrite frees_app, in_app_iff. cbn. intros [X|[X|[]]]; [tauto | lia].
    - rewrite frees_app. apply nodup_snoc; [exact C|]. intro X. apply A4 in X. congruence.
    - intro j. rewrite news_app, set_len, app_nil_r. apply D. }
  destruct k.
  - do 2 eexists. split; [reflexivity|]. specialize (A2 eq_refl). split; [apply FREE; lia|]. split; [apply set_len|]. split; [apply BY; reflexivity | reflexivity].
  - specialize (A3 eq_refl LV). destruct (Nat.eqb_spec (c_refs c) 1) as [R|R].
    + do 2 eexists. split; [reflexivity|]. split; [apply FREE; lia|]. split; [apply set_len|]. split; [apply BY; reflexivity | reflexivity].
    + do 2 eexists. split; [reflexivity|]. split; [|split; [apply set_len|]; split; [apply BY; reflexivity | reflexivity]]. rewrite app_nil_r. constructor; [| | exact C | intro j; rewrite set_len; apply D].
      * intros j d Hd. destruct (Nat.eq_dec j o) as [->|N].
        -- rewrite set_eq in Hd by exact L. injection Hd as <-. cbn. rewrite A3, K. repeat split; intros; try lia; try discriminate; auto. apply A4 in H. congruence.
        -- rewrite set_neq in Hd by exact N. destruct (A j d Hd) as (Q1 & Q2 & Q3 & Q4). rewrite cnt_cons in *. destruct (Nat.eq_dec o j); [congruence|]. cbn in *. tauto.
      * intros j H. rewrite set_len in H. destruct (B j H) as [Q1 Q2]. rewrite cnt_cons in Q1. split; [lia | exact Q2].
Qed.
Lemma J_release_opt : forall k h r t x, J k h (opt x ++ r) t -> exists h' e, release_opt k h x = Done h' e /\ J k h' r (t ++ e) /\ length h' = length h /\ (forall j c, nth_error h' j = Some c -> exists c0, nth_error h j = Some c0 /\ c_bytes c = c_bytes c0) /\ news e = [].
Proof.
  intros k h r t [o|] JJ; [exact (J_release k h r t o JJ)|]. exists h, []. rewrite app_nil_r. split; [reflexivity|]. split; [exact JJ|]. split; [reflexivity|]. split; [|reflexivity]. intros j c H. exists c. auto.
Qed.
Lemma J_share : forall h r t x, J Shared h r t -> (forall o, x = Some o -> In o r) -> exists h', share h x = Done h' [] /\ J Shared h' (opt x ++ r) t /\ length h' = length h /\ (forall j c, nth_error h' j = Some c -> exists c0, nth_error h j = Some c0 /\ c_bytes c = c_bytes c0).
Proof.
  intros h r t [o|] JJ I; [|exists h; split; [reflexivity|]; split; [exact JJ|]; split; [reflexivity|]; intros j c H; exists c; auto].
  specialize (I o eq_refl). pose proof JJ as [A B C D]. apply (count_occ_In Nat.eq_dec) in I. fold (cnt r o) in I.
  assert (L : o < length h). { destruct (le_lt_dec (length h) o) as [H|H]; [|exact H]. destruct (B o H) as [H1 _]. lia. }
  destruct (nth_error h o) as [c|] eqn:E; [|apply nth_error_None in E; lia]. destruct (A o c E) as (A1 & A2 & A3 & A4). assert (LV : c_live c = true) by (apply A1; lia). specialize (A3 eq_refl LV).
  cbn [share]. rewrite E, LV. eexists. split; [reflexivity|]. split; [|split; [apply set_len|]].
  - constructor; [| |exact C | intro j; rewrite set_len; apply D].
    + intros j d Hd. cbn [opt app]. rewrite cnt_cons. destruct (Nat.eq_dec j o) as [->|N].
      * rewrite set_eq in Hd by exact L. injection Hd as <-. cbn. destruct (Nat.eq_dec o o); [|congruence]. repeat split; intros; try lia; try discriminate; auto. apply A4 in H. congruence.
      * rewrite set_neq in Hd by exact N. destruct (A j d Hd) as (Q1 & Q2 & Q3 & Q4). destruct (Nat.eq_dec o j); [congruence|]. cbn. tauto.
    + intros j H. rewrite set_len in H. destruct (B j H) as [Q1 Q2]. cbn [opt app]. rewrite cnt_cons. destruct (Nat.eq_dec o j); [lia|]. auto.
  - intros j d Hd. destruct (Nat.eq_dec j o) as [->|N]; [rewrite set_eq in Hd by exact L; injection Hd as <-; exists c; auto | rewrite set_neq in Hd by exact N; exists d; auto].
Qed.
Lemma J_alloc : forall k h r t b, J k h r t -> J k (h ++ [mk_cell b 1 true]) (length h :: r) (t ++ [ENew (length h)]).
Proof.
  intros k h r t b JJ. pose proof JJ as [A B C D]. destruct (B (length h) (le_n _)) as [Z F]. constructor.
  - intros j d Hd. rewrite frees_app. cbn [frees flat_map app]. rewrite app_nil_r, cnt_cons. destruct (Nat.eq_dec (length h) j) as [<-|N].
    + rewrite nth_error_app2, Nat.sub_diag in Hd by lia. injection Hd as <-. rewrite Z. cbn. repeat split; intros; try lia; try discriminate; auto. tauto.
    + destruct (lt_dec j (length h)) as [H|H].
      * rewrite nth_error_app1 in Hd by lia. exact (A j d Hd).
      * rewrite nth_error_app2 in Hd by lia. destruct (j - length h) as [|n] eqn:X; [lia|]. destruct n; discriminate.
  - intros j H. rewrite app_length in H. cbn in H. destruct (B j) as [Q1 Q2]; [lia|]. rewrite cnt_cons, frees_app, app_nil_r. destruct (Nat.eq_dec (length h) j); [lia|]. auto.
  - rewrite frees_app, app_nil_r. exact C.
  - intro j. rewrite news_app, in_app_iff, app_length, D. cbn. lia.
Qed.

(** ** values *)
Definition val (h : list cell) (x : option nat) : option (list byte) := match x with Some o => match nth_error h o with Some c => Some (c_bytes c) | None => None end | None => None end.
Lemma map_ext_nth {A B} (f : nat -> B) (g : A -> B) : forall l a, (forall i x, nth_error l i = Some x -> f (a + i) = g x) -> map f (seq a (length l)) = map g l.
Proof.
  induction l as [|y l IH]; intros a H; cbn; [reflexivity|]. f_equal; [rewrite <- (H 0 y eq_refl); f_equal; lia|]. apply IH. intros i x E. rewrite <- (H (S i) x E). f_equal. lia.
Qed.
Lemma views_val s : views s = map (val (o_heap s)) (o_slots s).
Proof. unfold views. apply map_ext_nth. intros i x E. cbn. unfold view. rewrite E. destruct x; reflexivity. Qed.
Definition same (h h' : list cell) : Prop := length h' = length h /\ forall j c, nth_error h' j = Some c -> exists c0, nth_error h j = Some c0 /\ c_bytes c = c_bytes c0.
Lemma same_val h h' x : same h h' -> val h' x = val h x.
Proof.
  intros [L H]. destruct x as [o|]; [|reflexivity]. cbn. destruct (nth_error h' o) as [c|] eqn:E.
  - destruct (H o c E) as (c0 & E0 & B). rewrite E0, B. reflexivity.
  - apply nth_error_None in E. rewrite L in E. apply nth_error_None in E. rewrite E. reflexivity.
Qed.
Lemma same_map h h' l : same h h' -> map (val h') l = map (val h) l.
Proof. intro S. apply map_ext. intro x. apply same_val, S. Qed.
Lemma same_trans a b c : same a b -> same b c -> same a c.
Proof. intros [L1 H1] [L2 H2]. split; [congruence|]. intros j x E. destruct (H2 j x E) as (y & E2 & B2). destruct (H1 j y E2) as (z & E1 & B1). exists z. split; [exact E1 | congruence]. Qed.
Lemma map_nth {A B} (f : A -> B) : forall l i x, nth_error l i = Some x -> nth_error (map f l) i = Some (f x).
Proof. intros l i x H. apply map_nth_error. exact H. Qed.
Lemma alloc_map h b l : (forall o, In o (roots l) -> o < length h) -> map (val (h ++ [mk_cell b 1 true])) l = map (val h) l.
Proof.
  intro H. apply map_ext_in. intros [o|] I; [|reflexivity]. cbn. rewrite nth_error_app1; [reflexivity|]. apply H. apply roots_in. exact I.
Qed.
Lemma alloc_val h b : val (h ++ [mk_cell b 1 true]) (Some (length h)) = Some b.
Proof. cbn. rewrite nth_error_app2, Nat.sub_diag by lia. reflexivity. Qed.

Definition K (k : kind) (s : ob) (t : list ev) : Prop := J k (o_heap s) (roots (o_slots s)) t.
Lemma K_in : forall k s t o, K k s t -> In o (roots (o_slots s)) -> o < length (o_heap s).
Proof.
  intros k s t o [A B C D] I. apply (count_occ_In Nat.eq_dec) in I. fold (cnt (roots (o_slots s)) o) in I. destruct (le_lt_dec (length (o_heap s)) o) as [H|H]; [|exact H]. destruct (B o H). lia.
Qed.
Lemma cnt_two : forall l i j o, nth_error l i = Some (Some o) -> nth_error l j = Some (Some o) -> i <> j -> 2 <= cnt (roots l) o.
Proof.
  assert (ONE : forall l i o, nth_error l i = Some (Some o) -> 1 <= cnt (roots l) o).
  { intros l i o E. apply nth_error_In in E. apply roots_in in E. apply (count_occ_In Nat.eq_dec) in E. unfold cnt. lia. }
  assert (APP : forall a l o, cnt (roots (a :: l)) o = cnt (opt a) o + cnt (roots l) o).
  { intros a l o. change (roots (a :: l)) with (opt a ++ roots l). unfold cnt. apply count_occ_app. }
  induction l as [|a l IH]; intros [|i] [|j] o E1 E2 N; try discriminate; try congruence; rewrite APP; cbn in E1, E2.
  - injection E1 as ->. pose proof (ONE _ _ _ E2). cbn. destruct (Nat.eq_dec o o); [lia | congruence].
  - injection E2 as ->. pose proof (ONE _ _ _ E1). cbn. destruct (Nat.eq_dec o o); [lia | congruence].
  - assert (i <> j) by congruence. pose proof (IH i j o E1 E2 H). lia.
Qed.
Lemma K_clear : forall k s t i x, K k s t -> nth_error (o_slots s) i = Some x ->
  exists s' e, clear k s i = Done s' e /\ K k s' (t ++ e) /\ o_slots s' = set_nth i None (o_slots s) /\ same (o_heap s) (o_heap s').
Proof.
  intros k s t i x H E. unfold clear. rewrite E. pose proof (roots_set _ _ _ None E) as P. cbn [opt app] in P.
  destruct (J_release_opt k (o_heap s) (roots (set_nth i None (o_slots s))) t x (J_perm _ _ _ _ _ (Permutation_sym P) H)) as (h' & e & R & J' & L & B & _).
  rewrite R. cbn [bindo]. do 2 eexists. split; [reflexivity|]. rewrite app_nil_r. split; [exact J'|]. split; [reflexivity | split; assumption].
Qed.
Lemma roots_swap : forall l i j x y, nth_error l i = Some x -> nth_error l j = Some y -> Permutation (roots (set_nth j x (set_nth i y l))) (roots l).
Proof.
  intros l i j x y Ei Ej. destruct (Nat.eq_dec i j) as [->|N].
  - assert (x = y) by congruence. subst y. assert (E : nth_error (set_nth j x l) j = Some x) by (apply set_eq, (nth_len _ _ _ Ei)).
    pose proof (roots_set _ _ _ x E) as P1. pose proof (roots_set _ _ _ x Ei) as P2. apply Permutation_app_inv_l in P1. apply Permutation_app_inv_l in P2. exact (Permutation_trans P1 P2).
  - assert (E : nth_error (set_nth i y l) j = Some y) by (rewrite set_neq by congruence; exact Ej).
    pose proof (roots_set _ _ _ x E) as P1. pose proof (roots_set _ _ _ y Ei) as P2.
    apply (Permutation_app_inv_l (opt y)). eapply Permutation_trans; [exact P1 | exact P2].
Qed.
Lemma K_swap : forall k s t i j x y, K k s t -> nth_error (o_slots s) i = Some x -> nth_error (o_slots s) j = Some y ->
  exists s', swap s i j = Done s' [] /\ K k s' t /\ o_slots s' = set_nth j x (set_nth i y (o_slots s)) /\ o_heap s' = o_heap s.
Proof.
  intros k s t i j x y H Ei Ej. unfold swap. rewrite Ei, Ej. eexists. split; [reflexivity|]. split; [|split; reflexivity]. unfold K. cbn. apply (J_perm _ _ _ _ _ (Permutation_sym (roots_swap _ _ _ _ _ Ei Ej)) H).
Qed.
Lemma views_at s i x : nth_error (o_slots s) i = Some x -> nth_error (views s) i = Some (val (o_heap s) x).
Proof. intro E. rewrite views_val. apply map_nth. exact E. Qed.
Lemma views_none s i : nth_error (o_slots s) i = None -> nth_error (views s) i = None.
Proof. intro E. rewrite views_val. apply nth_error_None. rewrite map_length. apply nth_error_None. exact E. Qed.
Lemma len_views s : length (views s) = length (o_slots s).
Proof. rewrite views_val. apply map_length. Qed.
Lemma place_views s i y : i < length (o_slots s) -> place i y (views s) = set_nth i y (views s).
Proof. intro L. symmetry. apply set_place. rewrite views_val, map_length. exact L. Qed.

Arguments views : simpl never.
Lemma exec_ok : forall k s t a, K k s t ->
  match exec k s a with
  | Done s' e => K k s' (t ++ e) /\ (k = Unique \/ writes a = false -> vexec (views s) a = Some (views s'))
  | Undef => False
  | NoCpp => True
  end.
Proof.
  intros k s t a H. pose proof (K_in k s t) as IN. destruct a as [b| |i|i j|i|i b|i j|i j|i b]; cbn [exec].
  - cbn. split.
    + unfold K. cbn. rewrite roots_app. cbn. apply (J_perm _ _ (length (o_heap s) :: roots (o_slots s))); [apply Permutation_cons_append | apply J_alloc; exact H].
    + intros _. rewrite !views_val. cbn [o_heap o_slots]. rewrite map_app, alloc_map by (intros o; apply IN; exact H). cbn [map]. rewrite alloc_val. reflexivity.
  - split.
    + unfold K. cbn. rewrite roots_app, !app_nil_r. exact H.
    + intros _. cbn. rewrite !views_val. cbn. rewrite map_app. reflexivity.
  - destruct k; [exact I|]. destruct (nth_error (o_slots s) i) as [x|] eqn:E; [|exact I].
    destruct (J_share (o_heap s) (roots (o_slots s)) t x H) as (h' & R & J' & S); [intros o ->; apply roots_in, (nth_error_In _ _ E)|].
    rewrite R. cbn [bindo]. split.
    + unfold K. cbn. rewrite roots_app, app_nil_r. refine (J_perm _ _ _ _ _ _ J'). cbn. rewrite app_nil_r. apply Permutation_app_comm.
    + intros _. cbn. rewrite (views_at _ _ _ E), !views_val. cbn. rewrite map_app, (same_map _ _ _ S). cbn. do 2 f_equal. rewrite <- (same_val _ _ x S). reflexivity.
  - destruct (swap s i j) as [s' e| |] eqn:SW; [| unfold swap in SW; destruct (nth_error (o_slots s) i), (nth_error (o_slots s) j); discriminate | exact I].
    destruct (nth_error (o_slots s) i) as [x|] eqn:Ei; [|unfold swap in SW; rewrite Ei in SW; discriminate]. destruct (nth_error (o_slots s) j) as [y|] eqn:Ej; [|unfold swap in SW; rewrite Ei, Ej in SW; discriminate].
    destruct (K_swap k s t i j x y H Ei Ej) as (s1 & R & K1 & SL & HP). rewrite R in SW. injection SW as <- <-. rewrite app_nil_r. split; [exact K1|]. intros _. cbn.
    rewrite (views_at _ _ _ Ei), (views_at _ _ _ Ej). rewrite (views_val s1), SL, HP, !set_map, <- views_val. f_equal.
    rewrite (place_views s i _ (nth_len _ _ _ Ei)). symmetry. apply (f_equal Some). apply set_place. rewrite set_len, len_views. exact (nth_len _ _ _ Ej).
  - destruct (nth_error (o_slots s) i) as [x|] eqn:E; [|unfold clear; rewrite E; exact I].
    destruct (K_clear k s t i x H E) as (s1 & e & R & K1 & SL & SM). rewrite R. split; [exact K1|]. intros _. cbn. rewrite (views_at _ _ _ E), (views_val s1), SL, set_map, (same_map _ _ _ SM), <- views_val. apply (f_equal Some).
    apply place_views, (nth_len _ _ _ E).
  - destruct (nth_error (o_slots s) i) as [x|] eqn:E; [|exact I]. unfold alloc. cbn [bindo].
    pose proof (J_alloc k (o_heap s) (roots (o_slots s)) t b H) as J1. pose proof (roots_set _ _ _ (Some (length (o_heap s))) E) as P.
    destruct (J_release_opt k _ (roots (set_nth i (Some (length (o_heap s))) (o_slots s))) _ x (J_perm _ _ _ _ _ (Permutation_sym P) J1)) as (h' & e & R & J' & S1 & S2 & _).
    rewrite R. cbn [bindo app]. rewrite !app_nil_r. split.
    + unfold K. cbn. rewrite <- app_assoc in J'. exact J'.
    + intros _. cbn. rewrite (views_at _ _ _ E), (place_views s i _ (nth_len _ _ _ E)), !views_val. cbn. rewrite set_map, !(same_map _ _ _ (conj S1 S2)), (same_val _ _ _ (conj S1 S2)), alloc_val, alloc_map by (intros o; apply IN; exact H). reflexivity.
  - destruct k; [exact I|]. destruct (nth_error (o_slots s) i) as [x|] eqn:Ei; [|exact I]. destruct (nth_error (o_slots s) j) as [y|] eqn:Ej; [|exact I].
    destruct (J_share (o_heap s) (roots (o_slots s)) t y H) as (h1 & R1 & J1 & S1); [intros o ->; apply roots_in, (nth_error_In _ _ Ej)|]. rewrite R1. cbn [bindo].
    pose proof (roots_set _ _ _ y Ei) as P.
    destruct (J_release_opt Shared _ (roots (set_nth i y (o_slots s))) _ x (J_perm _ _ _ _ _ (Permutation_sym P) J1)) as (h' & e & R & J' & S2 & S3 & _). rewrite R. cbn [bindo app]. rewrite app_nil_r. split; [exact J'|].
    intros _. cbn. rewrite (views_at _ _ _ Ei), (views_at _ _ _ Ej), (place_views s i _ (nth_len _ _ _ Ei)), !views_val. cbn. rewrite set_map, !(same_map _ _ _ (same_trans _ _ _ S1 (conj S2 S3))), (same_val _ _ _ (same_trans _ _ _ S1 (conj S2 S3))). reflexivity.
  - destruct (nth_error (o_slots s) i) as [x|] eqn:Ei; [|unfold clear; rewrite Ei; exact I].
    destruct (K_clear k s t i x H Ei) as (s1 & e & R & K1 & SL & SM). rewrite R. cbn [bindo]. pose proof (nth_len _ _ _ Ei) as Li.
    assert (E1 : nth_error (o_slots s1) i = Some None) by (rewrite SL; apply set_eq; exact Li).
    destruct (nth_error (o_slots s) j) as [y|] eqn:Ej.
    + set (y' := if i =? j then None else y). assert (E2 : nth_error (o_slots s1) j = Some y') by (rewrite SL; unfold y'; destruct (Nat.eqb_spec i j); [subst; apply set_eq; exact Li | rewrite set_neq by congruence; exact Ej]).
      destruct (K_swap k s1 _ i j None y' K1 E1 E2) as (s2 & R2 & K2 & SL2 & HP2). rewrite R2. cbn [app]. rewrite app_nil_r. split; [exact K2|]. intros _. cbn.
      rewrite (views_at _ _ _ Ei), (views_at _ _ _ Ej). pose proof (nth_len _ _ _ Ej) as Lj.
      rewrite (views_val s2), SL2, HP2, SL, !set_map, (same_map _ _ _ SM), <- views_val, (same_val _ _ y' SM). cbn [val].
      rewrite (place_views s i _ Li), <- set_place by (rewrite set_len, len_views; exact Lj). apply (f_equal Some). f_equal.
      replace (if i =? j then None else val (o_heap s) y) with (val (o_heap s) y') by (unfold y'; destruct (i =? j); reflexivity).
      generalize (views s), (val (o_heap s) y'). clearbody y'. clear. intros v z. revert i. induction v as [|a v IH]; intros [|i]; cbn; try reflexivity. rewrite IH. reflexivity.
    + unfold swap. rewrite E1. replace (nth_error (o_slots s1) j) with (@None (option nat)); [exact I|]. symmetry. apply nth_error_None. rewrite SL, set_len. apply nth_error_None. exact Ej.
  - destruct (nth_error (o_slots s) i) as [[o|]|] eqn:E; try exact I. assert (IO : In o (roots (o_slots s))) by (apply roots_in, (nth_error_In _ _ E)).
    pose proof (IN o H IO) as L. destruct (nth_error (o_heap s) o) as [c|] eqn:EC; [|apply nth_error_None in EC; lia].
    destruct (j_cell _ _ _ _ H o c EC) as (A1 & A2 & A3 & A4). apply (count_occ_In Nat.eq_dec) in IO. fold (cnt (roots (o_slots s)) o) in IO. assert (LV : c_live c = true) by (apply A1; lia). rewrite LV. rewrite app_nil_r. split.
    + unfold K. cbn. destruct H as [B1 B2 B3 B4]. constructor; try rewrite set_len; try assumption. intros j d Hd. destruct (Nat.eq_dec j o) as [->|N]; [rewrite set_eq in Hd by exact L; injection Hd as <-; cbn; rewrite LV in *; tauto | rewrite set_neq in Hd by exact N; exact (B1 j d Hd)].
    + intros [->|W]; [|discriminate]. specialize (A2 eq_refl). cbn. rewrite (views_at _ _ _ E). cbn. rewrite EC. rewrite (place_views s i _ (nth_len _ _ _ E)). apply (f_equal Some). rewrite !views_val. cbn.
      assert (OTH : forall j, j <> i -> nth_error (o_slots s) j <> Some (Some o)) by (intros j N X; pose proof (cnt_two _ _ _ _ X E N); lia).
      clear - E OTH L. revert i E OTH. generalize (o_slots s). induction l as [|a l IH]; intros [|i] E OTH; try discriminate; cbn [map set_nth].
      * injection E as ->. f_equal; [cbn; rewrite set_eq by exact L; reflexivity|]. apply map_ext_in. intros [x|] X; [|reflexivity]. cbn. rewrite set_neq; [reflexivity|]. intros ->. apply In_nth_error in X. destruct X as [n X]. exact (OTH (S n) ltac:(discriminate) X).
      * f_equal; [|apply IH; [exact E | intros j N; exact (OTH (S j) ltac:(congruence))]]. destruct a as [x|]; [|reflexivity]. cbn. rewrite set_neq; [reflexivity|]. intros ->. exact (OTH 0 ltac:(discriminate) eq_refl).
Qed.

(** ** C124: buffers behave as values; every object is freed exactly once, when no buffer holds it any more *)
Lemma run_ok : forall k l s t, K k s t ->
  match run k s l with
  | Done s' e => K k s' (t ++ e) /\ (k = Unique \/ existsb writes l = false -> vrun (views s) l = Some (views s'))
  | Undef => False
  | NoCpp => True
  end.
Proof.
  induction l as [|a l IH]; intros s t H; cbn [run]; [rewrite app_nil_r; split; [exact H | reflexivity]|].
  pose proof (exec_ok k s t a H) as E. destruct (exec k s a) as [s1 e1| |]; cbn [bindo]; [|exact E | exact I]. destruct E as [H1 V1].
  specialize (IH s1 (t ++ e1) H1). destruct (run k s1 l) as [s2 e2| |]; [|exact IH | exact I]. destruct IH as [H2 V2]. rewrite app_assoc. split; [exact H2|].
  intro Q. cbn [vrun existsb] in *. rewrite V1, V2; [reflexivity | |]; destruct Q as [Q|Q]; auto; apply orb_false_iff in Q; tauto.
Qed.
Lemma K_empty k : K k empty_ob [].
Proof. constructor; cbn; intros; try (destruct o; discriminate); try tauto; [constructor | split; [tauto | lia]]. Qed.
Theorem C124_no_undefined : forall k l, run k empty_ob l <> Undef.
Proof. intros k l E. pose proof (run_ok k l empty_ob [] (K_empty k)) as R. rewrite E in R. exact R. Qed.
Print Assumptions C124_no_undefined.
Theorem C124_values : forall k l s t, run k empty_ob l = Done s t -> k = Unique \/ existsb writes l = false -> vrun [] l = Some (views s).
Proof. intros k l s t E Q. pose proof (run_ok k l empty_ob [] (K_empty k)) as R. rewrite E in R. exact (proj2 R Q). Qed.
Print Assumptions C124_values.
Theorem C124_memory : forall k l s t, run k empty_ob l = Done s t ->
  NoDup (frees t) /\ (forall o, held s o -> In o (news t)) /\ (forall o, In o (news t) -> (In o (frees t) <-> ~ held s o)).
Proof.
  intros k l s t E. pose proof (run_ok k l empty_ob [] (K_empty k)) as R. rewrite E in R. destruct R as [H _]. cbn [app] in H. pose proof H as [A B C D].
  split; [exact C|]. split.
  - intros o X. apply D. apply roots_in in X. exact (K_in _ _ _ _ H X).
  - intros o X. apply D in X. destruct (nth_error (o_heap s) o) as [c|] eqn:EC; [|apply nth_error_None in EC; lia]. destruct (A o c EC) as (A1 & _ & _ & A4).
    unfold held. rewrite <- roots_in, A4. rewrite (count_occ_In Nat.eq_dec). fold (cnt (roots (o_slots s)) o). destruct (c_live c); intuition (try congruence; try lia).
Qed.
Print Assumptions C124_memory.
Definition ex_ops : list op := [ONew [x61; x62]; ODefault; OSwap 0 1; ONew [x63]; OTake 0 2; OWrite 1 [x64]; OReset 2 [x65]; OClear 1].
Example C124_ex : exists s t, run Unique empty_ob ex_ops = Done s t /\ views s = [Some [x63]; None; Some [x65]] /\ t = [ENew 0; ENew 1; ENew 2; EFree 0].
Proof. do 2 eexists. split; [vm_compute; reflexivity|]. split; reflexivity. Qed.
Definition ex_shared : list op := [ONew [x61]; OCopy 0; ODefault; OAssign 2 1; OClear 0; OClear 1; OReset 2 [x62]].
Example C124_ex_shared : exists s t, run Shared empty_ob ex_shared = Done s t /\ existsb writes ex_shared = false /\ views s = [None; None; Some [x62]] /\ t = [ENew 0; ENew 1; EFree 0].
Proof. do 2 eexists. split; [vm_compute; reflexivity|]. repeat split. Qed.
(** copies of a shared_buffer share the object: changing one changes the other, e.g. a copy in the send buffer *)
Example C124_sharp : exists s t, run Shared empty_ob [ONew [x61]; OCopy 0; OWrite 0 [x62; x63]] = Done s t /\ views s = [Some [x62; x63]; Some [x62; x63]] /\
  vrun [] [ONew [x61]; OCopy 0; OWrite 0 [x62; x63]] = Some [Some [x62; x63]; Some [x61]].
Proof. do 2 eexists. split; [vm_compute; reflexivity|]. split; reflexivity. Qed.

(** ** C125: packing and unpacking with buffers *)
Lemma release_cpp k h x : release_opt k h x <> NoCpp.
Proof. destruct x as [o|]; cbn; [|discriminate]. unfold release. destruct (nth_error h o) as [c|]; [|discriminate]. destruct (c_live c); cbn; [|discriminate]. destruct k; [discriminate|]. destruct (c_refs c =? 1); discriminate. Qed.
Lemma view_val s i x : nth_error (o_slots s) i = Some x -> view s i = val (o_heap s) x.
Proof. intro E. unfold view. rewrite E. destruct x; reflexivity. Qed.
Lemma nth_views s j : j < length (o_slots s) -> nth_error (views s) j = Some (view s j).
Proof. intro L. destruct (nth_error (o_slots s) j) as [x|] eqn:E; [|apply nth_error_None in E; lia]. rewrite (views_at _ _ _ E), (view_val _ _ _ E). reflexivity. Qed.
Lemma view_out s i : length (o_slots s) <= i -> view s i = None.
Proof. intro L. unfold view. apply nth_error_None in L. rewrite L. reflexivity. Qed.
Lemma move_in_ok : forall k is s t, K k s t -> NoDup is -> (forall i, In i is -> i < length (o_slots s)) ->
  exists s' e, move_in k s is = Done s' e /\ K k s' (t ++ e) /\ length (o_slots s') = length (o_slots s) + length is /\
  (forall n i, nth_error is n = Some i -> view s' (length (o_slots s) + n) = view s i) /\ (forall i, In i is -> view s' i = None) /\
  (forall j, j < length (o_slots s) -> ~ In j is -> view s' j = view s j).
Proof.
  intros k. induction is as [|i is IH]; intros s t H N L.
  - exists s, []. rewrite app_nil_r. cbn. split; [reflexivity|]. split; [exact H|]. split; [lia|]. split; [intros [|n] i E; discriminate|]. split; [tauto | reflexivity].
  - cbn [move_in]. pose proof (exec_ok k s t ODefault H) as E1. cbn [exec] in *. destruct E1 as [H1 _]. cbn [bindo].
    set (s1 := mk_ob (o_heap s) (o_slots s ++ [None])) in *. assert (Li : i < length (o_slots s)) by (apply L; left; reflexivity).
    destruct (nth_error (o_slots s) i) as [x|] eqn:Ei; [|apply nth_error_None in Ei; lia].
    assert (Ei1 : nth_error (o_slots s1) i = Some x) by (cbn; rewrite nth_error_app1 by exact Li; exact Ei).
    assert (El1 : nth_error (o_slots s1) (length (o_slots s)) = Some None) by (cbn; rewrite nth_error_app2, Nat.sub_diag by lia; reflexivity).
    destruct (K_swap k s1 _ i (length (o_slots s)) x None H1 Ei1 El1) as (s2 & R2 & K2 & SL & HP). rewrite R2. cbn [bindo].
    assert (V2 : forall j, view s2 j = if j =? length (o_slots s) then view s i else if j =? i then None else view s j).
    { intro j. unfold view at 1. rewrite SL, HP. destruct (Nat.eqb_spec j (length (o_slots s))) as [->|N1].
      - rewrite set_eq by (rewrite set_len; cbn; rewrite app_length; cbn; lia). cbn [o_heap s1]. rewrite (view_val _ _ _ Ei). destruct x; reflexivity.
      - rewrite set_neq by exact N1. destruct (Nat.eqb_spec j i) as [->|N2]; [rewrite set_eq by (cbn; rewrite app_length; cbn; lia); reflexivity|].
        rewrite set_neq by exact N2. unfold view. cbn [o_slots o_heap s1]. destruct (lt_dec j (length (o_slots s))) as [Q|Q]; [rewrite nth_error_app1 by exact Q; reflexivity|].
        rewrite nth_error_app2 by lia. destruct (j - length (o_slots s)) as [|n] eqn:X; [lia|]. replace (nth_error (o_slots s) j) with (@None (option nat)) by (symmetry; apply nth_error_None; lia). destruct n; reflexivity. }
    assert (L2 : length (o_slots s2) = S (length (o_slots s))) by (rewrite SL, !set_len; cbn; rewrite app_length; cbn; lia).
    inversion N as [|? ? N1 N2]; subst. destruct (IH s2 _ K2 N2) as (s' & e & R & K' & L' & A' & B' & C').
    { intros j J'. rewrite L2. pose proof (L j (or_intror J')). lia. }
    rewrite R. cbn [app]. do 2 eexists. split; [reflexivity|]. split; [rewrite app_nil_r in K'; exact K'|]. split; [rewrite L', L2; cbn [length]; lia|].
    assert (NI : forall j, In j is -> j <> i) by (intros j J' ->; tauto).
    split; [|split].
    + intros [|n] j E; cbn in E.
      * injection E as <-. rewrite Nat.add_0_r, C', V2, Nat.eqb_refl; [reflexivity | lia |]. intro J'. pose proof (L _ (or_intror J')). lia.
      * rewrite <- (Nat.add_succ_comm). rewrite <- L2, (A' n j E), V2. pose proof (nth_error_In _ _ E) as J'. pose proof (L j (or_intror J')).
        destruct (Nat.eqb_spec j (length (o_slots s))); [lia|]. destruct (Nat.eqb_spec j i); [subst; tauto | reflexivity].
    + intros j [<-|J']; [|apply B'; exact J']. rewrite C', V2, Nat.eqb_refl; [|lia | exact N1]. destruct (Nat.eqb_spec i (length (o_slots s))); [lia | reflexivity].
    + intros j Lj NJ. rewrite C', V2; [|lia | intro; apply NJ; right; assumption]. destruct (Nat.eqb_spec j (length (o_slots s))); [lia|]. destruct (Nat.eqb_spec j i); [subst; exfalso; apply NJ; left; reflexivity | reflexivity].
Qed.
Definition reached (k : kind) (s : ob) : Prop := exists l t, run k empty_ob l = Done s t.
Lemma reached_K : forall k s, reached k s -> exists t, K k s t.
Proof. intros k s (l & t & E). pose proof (run_ok k l empty_ob [] (K_empty k)) as R. rewrite E in R. exists t. exact (proj1 R). Qed.
Lemma pack2_list_ok : forall c nd k s is len, reached k s -> NoDup is -> (forall i, In i is -> i < length (o_slots s)) ->
  agree s is (if (max_body c <? len)%N then Ok None else bind (pack_header c nd len) (fun h => Ok (Some (h :: map (bytes_of s) is)))) (pack2_list c nd k s len is).
Proof.
  intros c nd k s is len RE N L. destruct (reached_K _ _ RE) as [t H]. unfold agree, pack2_list. destruct (max_body c <? len)%N; [auto|].
  destruct (pack_header c nd len) as [h|b]; cbn [bind]; [|reflexivity].
  pose proof (exec_ok k s t (ONew h) H) as E1. cbn [exec alloc] in *. destruct E1 as [H1 _]. cbn [bindo].
  set (s1 := mk_ob (o_heap s ++ [mk_cell h 1 true]) (o_slots s ++ [Some (length (o_heap s))])) in *.
  assert (L1 : length (o_slots s1) = S (length (o_slots s))) by (cbn; rewrite app_length; cbn; lia).
  assert (V0 : view s1 (length (o_slots s)) = Some h) by (unfold view; cbn [o_slots o_heap s1]; rewrite nth_error_app2, Nat.sub_diag by lia; cbn [nth_error]; rewrite nth_error_app2, Nat.sub_diag by lia; reflexivity).
  assert (V1 : forall j, j < length (o_slots s) -> view s1 j = view s j).
  { intros j Lj. unfold view. cbn [o_slots o_heap s1]. rewrite nth_error_app1 by exact Lj. destruct (nth_error (o_slots s) j) as [[o|]|] eqn:E; try reflexivity.
    rewrite nth_error_app1; [reflexivity|]. apply (K_in _ _ _ _ H), roots_in, (nth_error_In _ _ E). }
  destruct (move_in_ok k is s1 _ H1 N) as (s' & e & R & K' & L' & A' & B' & C'); [intros i I; rewrite L1; pose proof (L i I); lia|]. rewrite R. cbn [bindo]. split; [|split].
  - unfold items_of. replace (length (o_slots s') - length (o_slots s)) with (S (length is)) by lia. cbn [seq map]. f_equal.
    + unfold bytes_of. rewrite C', V0; [reflexivity | lia | intro I; pose proof (L _ I); lia].
    + apply map_ext_nth. intros n i E. rewrite <- L1. unfold bytes_of. rewrite (A' n i E), V1; [reflexivity | apply L, (nth_error_In _ _ E)].
  - exact B'.
  - intros j Lj NJ. rewrite C'; [apply V1; exact Lj | lia | exact NJ].
Qed.
Theorem C125_one : forall c nd k s i, reached k s -> i < length (o_slots s) -> agree s [i] (pack_one c nd (bytes_of s i)) (pack2_one c nd k s i).
Proof. intros c nd k s i R L. apply (pack2_list_ok c nd k s [i] (lenN (bytes_of s i)) R); [repeat constructor; auto | intros j [<-|[]]; exact L]. Qed.
Print Assumptions C125_one.
Theorem C125_two : forall c nd k s i j, reached k s -> i < length (o_slots s) -> j < length (o_slots s) -> i <> j -> agree s [i; j] (pack_two c nd (bytes_of s i) (bytes_of s j)) (pack2_two c nd k s i j).
Proof.
  intros c nd k s i j R Li Lj N. apply (pack2_list_ok c nd k s [i; j] ((lenN (bytes_of s i) + lenN (bytes_of s j)) mod size_range c)%N R).
  - constructor; [intros [X|[]]; congruence|]. constructor; [tauto | constructor].
  - intros x [<-|[<-|[]]]; assumption.
Qed.
Print Assumptions C125_two.
Theorem C125_many : forall c nd k s is, reached k s -> NoDup is -> (forall i, In i is -> i < length (o_slots s)) -> agree s is (pack_many c nd (map (bytes_of s) is)) (pack2_many c nd k s is).
Proof. intros c nd k s is R N L. apply (pack2_list_ok c nd k s is (size_in_byte c (map (bytes_of s) is)) R N L). Qed.
Print Assumptions C125_many.
Lemma wrap_packed_ok : forall k s i p, reached k s -> i < length (o_slots s) -> agree_one s i (Ok p) (Ok (wrap_packed k s i p)).
Proof.
  intros k s i [ok m] RE L. destruct (reached_K _ _ RE) as [t H]. unfold wrap_packed, agree_one. cbn [fst snd]. destruct ok; [|auto].
  pose proof (exec_ok k s t (OReset i m) H) as E. destruct (nth_error (o_slots s) i) as [x|] eqn:Ei; [|apply nth_error_None in Ei; lia].
  destruct (exec k s (OReset i m)) as [s' e| |] eqn:X; cbn [bindo]; [| contradiction | exfalso; cbn [exec] in X; rewrite Ei in X; cbn [alloc bindo] in X; pose proof (release_cpp k (o_heap s ++ [mk_cell m 1 true]) x); destruct (release_opt k (o_heap s ++ [mk_cell m 1 true]) x); cbn in X; congruence].
  destruct E as [K' V]. specialize (V (or_intror eq_refl)). cbn in V. rewrite (views_at _ _ _ Ei), (place_views s i _ L) in V. injection V as V.
  assert (LL : length (o_slots s') = length (o_slots s)) by (rewrite <- !len_views, <- V, set_len; reflexivity).
  assert (VV : forall j, j < length (o_slots s) -> nth_error (views s') j = Some (view s' j)) by (intros j Lj; apply nth_views; lia).
  split; [|split; [exact LL|]].
  - specialize (VV i L). rewrite <- V, set_eq in VV by (rewrite len_views; exact L). congruence.
  - intros j N. destruct (lt_dec j (length (o_slots s))) as [Q|Q]; [|rewrite !view_out by lia; reflexivity]. specialize (VV j Q). rewrite <- V, set_neq, (nth_views s j Q) in VV by exact N. congruence.
Qed.
Theorem C125_array : forall c k s i bufs native, reached k s -> i < length (o_slots s) -> agree_one s i (pack_array c bufs native) (pack2_array c k s i bufs native).
Proof.
  intros c k s i bufs native R L. unfold pack2_array. destruct (pack_array c bufs native) as [p|b]; [|reflexivity]. exact (wrap_packed_ok k s i p R L).
Qed.
Print Assumptions C125_array.
Theorem C125_heartbeat : forall c nd k s i, reached k s -> i < length (o_slots s) -> agree_one s i (bind (pack_heartbeat c nd) (fun h => Ok (true, h))) (pack2_heartbeat c nd k s i).
Proof.
  intros c nd k s i R L. unfold pack2_heartbeat. destruct (pack_heartbeat c nd) as [h|b]; [|reflexivity]. exact (wrap_packed_ok k s i (true, h) R L).
Qed.
Print Assumptions C125_heartbeat.
(** each message of the real unpacker becomes one new buffer with the same bytes; nothing else changes *)
Theorem C125_unpack : forall k msgs s, reached k s ->
  exists s' e, wrap_unpacked k s msgs = Done s' e /\ reached k s' /\ items_of s s' = msgs /\ forall j, j < length (o_slots s) -> view s' j = view s j.
Proof.
  assert (G : forall k msgs s, wrap_unpacked k s msgs = run k s (map ONew msgs)) by (induction msgs as [|m msgs IH]; intro s; cbn; [reflexivity | cbn in IH; rewrite IH; reflexivity]).
  assert (RA : forall k l1 l2 s, run k s (l1 ++ l2) = bindo (run k s l1) (fun s => run k s l2)).
  { intros k. induction l1 as [|a l1 IH]; intros l2 s; cbn; [destruct (run k s l2); reflexivity|]. destruct (exec k s a) as [s1 e1| |]; cbn; [|reflexivity | reflexivity]. rewrite IH. destruct (run k s1 l1) as [s2 e2| |]; cbn; [|reflexivity | reflexivity]. destruct (run k s2 l2); [rewrite app_assoc|..]; reflexivity. }
  intros k msgs s (l & t & R0). rewrite G. destruct (reached_K k s) as [t0 H]; [exists l, t; exact R0|]. pose proof (run_ok k (map ONew msgs) s t0 H) as R.
  assert (W : existsb writes (map ONew msgs) = false) by (clear; induction msgs; [reflexivity | exact IHmsgs]).
  assert (VR : forall v, vrun v (map ONew msgs) = Some (v ++ map Some msgs)).
  { clear. induction msgs as [|m msgs IH]; intro v; cbn; [rewrite app_nil_r; reflexivity|]. rewrite IH, <- app_assoc. reflexivity. }
  destruct (run k s (map ONew msgs)) as [s' e| |] eqn:E; [|contradiction|].
  - destruct R as [K' V]. specialize (V (or_intror W)). rewrite VR in V. injection V as V. do 2 eexists. split; [reflexivity|].
    assert (LL : length (o_slots s') = length (o_slots s) + length msgs) by (rewrite <- !len_views, <- V, app_length, map_length; reflexivity).
    pose proof nth_views as NV.
    split; [|split].
    + exists (l ++ map ONew msgs), (t ++ e). rewrite RA, R0. cbn [bindo]. rewrite E. reflexivity.
    + unfold items_of. replace (length (o_slots s') - length (o_slots s)) with (length msgs) by lia. rewrite <- (map_id msgs) at 2. apply map_ext_nth. intros n m En.
      assert (X : nth_error (views s') (length (o_slots s) + n) = Some (Some m)). { rewrite <- V, nth_error_app2, len_views by (rewrite len_views; lia). rewrite Nat.add_comm, Nat.add_sub. apply map_nth. exact En. }
      rewrite NV in X by (pose proof (nth_len _ _ _ En); lia). unfold bytes_of. injection X as ->. reflexivity.
    + intros j Lj. pose proof (NV s' j) as X. rewrite <- V, nth_error_app1, (NV s j Lj) in X by (rewrite len_views; exact Lj). assert (Q : j < length (o_slots s')) by lia. specialize (X Q). congruence.
  - exfalso. clear - E. revert s E. induction msgs as [|m msgs IH]; intros s E; [discriminate|]. cbn in E. destruct (run k _ (map ONew msgs)) eqn:X in E; try discriminate. exact (IH _ X).
Qed.
Print Assumptions C125_unpack.
Definition ex_state (k : kind) (l : list op) : ob := match run k empty_ob l with Done s _ => s | _ => empty_ob end.
Definition ex_bufs : list op := [ONew [x61; x62]; ODefault; ONew [x63]].
Example C125_ex : reached Unique (ex_state Unique ex_bufs) /\ exists s' e, pack2_many default_cfg true Unique (ex_state Unique ex_bufs) [2; 1; 0] = Ok (Done (true, s') e) /\
  views s' = [None; None; None; Some [x00; x05]; Some [x63]; None; Some [x61; x62]].
Proof. split; [exists ex_bufs; eexists; vm_compute; reflexivity|]. do 2 eexists. split; [vm_compute; reflexivity|]. reflexivity. Qed.
Example C125_ex_one : exists s' e, pack2_array default_cfg Shared (ex_state Shared ex_bufs) 1 (Some [mk_buf (Some [x64; x65]) 2]) false = Ok (Done (true, s') e) /\
  views s' = [Some [x61; x62]; Some [x00; x04; x64; x65]; Some [x63]] /\ e = [ENew 2].
Proof. do 2 eexists. split; [vm_compute; reflexivity|]. split; reflexivity. Qed.
Example C125_ex_unpack : exists s' e, wrap_unpacked Shared (ex_state Shared ex_bufs) [[x64]; []] = Done s' e /\ views s' = [Some [x61; x62]; None; Some [x63]; Some [x64]; Some []].
Proof. do 2 eexists. split; [vm_compute; reflexivity|]. reflexivity. Qed.

(** ** C126: the header of a message announces as many bytes as follow *)
Definition C126_statement : Prop := forall c nd k s i j s' e, cfg_ok c = true -> (bufsz c < head_range c)%N -> reached k s ->
  i < length (o_slots s) -> j < length (o_slots s) -> (lenN (bytes_of s i) + lenN (bytes_of s j) < size_range c)%N ->
  pack2_two c nd k s i j = Ok (Done (true, s') e) -> announces c (items_of s s').
(** send_msg(m, m): the first swap takes m, the second one finds it empty. The header counts m twice. *)
Theorem C126_refuted : exists c s i s' e, cfg_ok c = true /\ (bufsz c < head_range c)%N /\ reached Unique s /\ i < length (o_slots s) /\ (lenN (bytes_of s i) + lenN (bytes_of s i) < size_range c)%N /\
  pack2_two c false Unique s i i = Ok (Done (true, s') e) /\ items_of s s' = [[x00; x06]; [x61; x62]; []] /\ ~ announces c (items_of s s').
Proof.
  exists default_cfg, (ex_state Unique ex_bufs), 0. do 2 eexists. split; [vm_compute; reflexivity|]. split; [vm_compute; reflexivity|].
  split; [exists ex_bufs; eexists; vm_compute; reflexivity|]. split; [vm_compute; lia|]. split; [vm_compute; reflexivity|]. split; [vm_compute; reflexivity|]. split; [vm_compute; reflexivity|]. vm_compute. discriminate.
Qed.
Print Assumptions C126_refuted.
Theorem C126_statement_refuted : ~ C126_statement.
Proof.
  intro S. destruct C126_refuted as (c & s & i & s' & e & H1 & H2 & H3 & H4 & H5 & H6 & _ & H7). exact (H7 (S c false Unique s i i s' e H1 H2 H3 H4 H4 H5 H6)).
Qed.
Print Assumptions C126_statement_refuted.
Lemma agree_announces : forall c nd k s is len s' e, cfg_ok c = true -> (bufsz c < head_range c)%N -> reached k s -> NoDup is -> (forall i, In i is -> i < length (o_slots s)) ->
  len = lenN (concat (map (bytes_of s) is)) -> pack2_list c nd k s len is = Ok (Done (true, s') e) -> announces c (items_of s s').
Proof.
  intros c nd k s is len s' e HC HR R N L HL E. pose proof (pack2_list_ok c nd k s is len R N L) as A. rewrite E in A. unfold agree in A.
  destruct (N.ltb_spec (max_body c) len) as [Q|Q]; [contradiction|]. destruct (L_Frame.cfg_ok_facts c HC) as (C1 & C2 & C3 & C4).
  unfold max_body in Q. rewrite L_Packer.pack_header_ok in A by (try assumption; unfold max_body; lia). cbn [bind] in A. destruct A as [-> _]. unfold announces. cbn [concat].
  unfold head_image. rewrite L_Bytes.be_decode_encode, N2Nat.id. change (256 ^ head_len c)%N with (head_range c). rewrite L_Bytes.lenN_app, <- HL.
  rewrite N.mod_small by lia. unfold lenN at 1. rewrite L_Bytes.be_encode_len, N2Nat.id. reflexivity.
Qed.
Theorem C126_distinct_partial : forall c nd k s i j s' e, cfg_ok c = true -> (bufsz c < head_range c)%N -> reached k s ->
  i < length (o_slots s) -> j < length (o_slots s) -> (lenN (bytes_of s i) + lenN (bytes_of s j) < size_range c)%N -> i <> j ->
  pack2_two c nd k s i j = Ok (Done (true, s') e) -> announces c (items_of s s').
Proof.
  intros c nd k s i j s' e HC HR R Li Lj HS N E. unfold pack2_two in E. rewrite N.mod_small in E by exact HS. refine (agree_announces c nd k s [i; j] _ s' e HC HR R _ _ _ E).
  - constructor; [intros [X|[]]; congruence|]. constructor; [tauto | constructor].
  - intros x [<-|[<-|[]]]; assumption.
  - cbn. rewrite app_nil_r, L_Bytes.lenN_app. reflexivity.
Qed.
Print Assumptions C126_distinct_partial.
(** a container cannot hold the same buffer twice *)
Theorem C126_many_partial : forall c nd k s is s' e, cfg_ok c = true -> (bufsz c < head_range c)%N -> reached k s -> NoDup is -> (forall i, In i is -> i < length (o_slots s)) ->
  (lenN (concat (map (bytes_of s) is)) < size_range c)%N -> pack2_many c nd k s is = Ok (Done (true, s') e) -> announces c (items_of s s').
Proof.
  intros c nd k s is s' e HC HR R N L HS E. unfold pack2_many in E. rewrite L_Packer.size_in_byte_ok in E by assumption. exact (agree_announces c nd k s is _ s' e HC HR R N L eq_refl E).
Qed.
Print Assumptions C126_many_partial.
Example C126_ex : exists s' e, pack2_two default_cfg false Unique (ex_state Unique ex_bufs) 0 2 = Ok (Done (true, s') e) /\ items_of (ex_state Unique ex_bufs) s' = [[x00; x05]; [x61; x62]; [x63]] /\
  announces default_cfg (items_of (ex_state Unique ex_bufs) s').
Proof. do 2 eexists. split; [vm_compute; reflexivity|]. split; vm_compute; reflexivity. Qed.
