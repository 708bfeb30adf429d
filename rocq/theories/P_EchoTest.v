(** C144: the performance test of echo_client. *)
From Coq Require Import List NArith Arith Lia Bool.
From Verif Require Import M_EchoTest S_EchoTest.
Import ListNotations.

(** ** dividing the links *)
(** the number of elements as a size_t *)
Definition lenN {A} (l : list A) : N := N.of_nat (length l).
Lemma add_to_app pre x cur post : add_to (length pre) x (pre ++ cur :: post) = Some (pre ++ (cur ++ [x]) :: post).
Proof. induction pre as [|p pre IH]; [reflexivity|]. cbn [length app add_to]. rewrite IH. reflexivity. Qed.

Section Divide.
Variables (W per : N).
Hypothesis HW : (1 < W)%N.
Hypothesis HP : (0 < per /\ per + 1 < W)%N.

(** the next link goes into the current group *)
Lemma fill_one pre cur post t left x : (0 < t < W)%N ->
  group_link W per (mk_g (pre ++ cur :: post) (N.of_nat (length pre)) t left) x = Fine (mk_g (pre ++ (cur ++ [x]) :: post) (N.of_nat (length pre)) (t - 1) left).
Proof.
  intros T. unfold group_link. cbn [g_this g_index g_groups g_left]. destruct (N.eqb_spec t 0) as [E|E]; [lia|]. cbn [g_this g_index g_groups g_left].
  rewrite Nat2N.id, add_to_app. replace (t + W - 1)%N with (t - 1 + 1 * W)%N by lia. rewrite N.mod_add by lia. rewrite N.mod_small by lia. reflexivity.
Qed.
Lemma fill_some xs : forall pre cur post t left rest, (lenN xs <= t < W)%N ->
  visit W per (mk_g (pre ++ cur :: post) (N.of_nat (length pre)) t left) (xs ++ rest) = visit W per (mk_g (pre ++ (cur ++ xs) :: post) (N.of_nat (length pre)) (t - lenN xs) left) rest.
Proof.
  induction xs as [|x xs IH]; intros pre cur post t left rest T.
  - cbn [app]. unfold lenN. cbn [length]. rewrite app_nil_r, N.sub_0_r. reflexivity.
  - unfold lenN in T. cbn [length] in T. rewrite Nat2N.inj_succ in T. cbn [app visit]. rewrite fill_one by lia. rewrite IH by (unfold lenN; lia).
    rewrite <- app_assoc. cbn [app]. unfold lenN. cbn [length]. rewrite Nat2N.inj_succ. do 2 f_equal. lia.
Qed.
(** a new group is begun *)
Definition size_of (left : N) : N := if (0 <? left)%N then (per + 1)%N else per.
Lemma begin_group gs i left x rest : visit W per (mk_g gs i 0 left) (x :: rest) = visit W per (mk_g gs ((i + 1) mod W) (size_of left) (left - 1)) (x :: rest).
Proof.
  cbn [visit]. unfold group_link, size_of. cbn [g_this g_index g_groups g_left]. rewrite N.eqb_refl. destruct (N.ltb_spec 0 left) as [L|L].
  - cbn [g_this g_index g_groups g_left]. rewrite (N.mod_small (per + 1)) by lia. destruct (N.eqb_spec (per + 1) 0) as [E|E]; [lia|]. reflexivity.
  - cbn [g_this g_index g_groups g_left]. destruct (N.eqb_spec per 0) as [E|E]; [lia|]. cbn [g_this g_index g_groups g_left]. replace (left - 1)%N with left by lia. reflexivity.
Qed.
Lemma divide m : forall left pre i ls, (left <= N.of_nat m)%N -> (lenN ls <= N.of_nat m * per + left)%N -> ((i + 1) mod W = N.of_nat (length pre))%N -> (N.of_nat (length pre) + 1 + N.of_nat m < W)%N ->
  exists s new, visit W per (mk_g (pre ++ repeat [] m) i 0 left) ls = Fine s /\ g_groups s = pre ++ new /\ length new = m /\ concat new = ls /\
    ((lenN ls = N.of_nat m * per + left)%N -> Forall (fun g => lenN g = per \/ lenN g = (per + 1)%N) new).
Proof.
  induction m as [|m IH]; intros left pre i ls HL HN HI HB.
  - destruct ls as [|x ls]; [|unfold lenN in HN; cbn [length] in HN; rewrite Nat2N.inj_succ in HN; lia]. exists (mk_g (pre ++ repeat [] 0) i 0 left), []. repeat split. constructor.
  - destruct ls as [|x ls].
    { exists (mk_g (pre ++ repeat [] (S m)) i 0 left), (repeat [] (S m)). split; [reflexivity|]. split; [reflexivity|]. split; [apply repeat_length|]. split.
      - clear. induction m as [|m IH]; [reflexivity|]. exact IH.
      - unfold lenN. cbn [length]. rewrite Nat2N.inj_succ. nia. }
    rewrite begin_group, HI. change (repeat [] (S m)) with (([] : list nat) :: repeat [] m).
    set (sz := size_of left). assert (SZ : (sz = per \/ sz = per + 1)%N /\ (0 < sz < W)%N /\ (left = 0 -> sz = per)%N /\ (0 < left -> sz = per + 1)%N).
    { unfold sz, size_of. destruct (N.ltb_spec 0 left); repeat split; lia. }
    destruct SZ as (S1 & S2 & S3 & S4). clearbody sz. rewrite Nat2N.inj_succ in *.
    set (xs := firstn (N.to_nat sz) (x :: ls)). set (rest := skipn (N.to_nat sz) (x :: ls)).
    assert (E : x :: ls = xs ++ rest) by (symmetry; apply firstn_skipn).
    assert (LX : (lenN xs <= sz)%N) by (unfold lenN, xs; assert (Q := firstn_le_length (N.to_nat sz) (x :: ls)); rewrite firstn_length; lia).
    assert (LR : rest = [] \/ lenN xs = sz).
    { unfold rest, xs, lenN. destruct (le_lt_dec (length (x :: ls)) (N.to_nat sz)) as [Q|Q]; [left; apply skipn_all2; exact Q|right]. rewrite firstn_length_le by lia. lia. }
    assert (LL : (lenN (x :: ls) = lenN xs + lenN rest)%N) by (rewrite E at 1; unfold lenN; rewrite app_length; lia).
    rewrite E. rewrite fill_some by lia. cbn [app]. destruct rest as [|r rest].
    + cbn [visit]. do 2 eexists. split; [reflexivity|]. cbn [g_groups]. split; [reflexivity|]. split; [cbn [length]; rewrite repeat_length; reflexivity|]. split.
      * cbn [concat]. f_equal. clear. induction m as [|m IH]; [reflexivity|]. exact IH.
      * intros Q. rewrite app_nil_r in *. unfold lenN at 2 in LL. cbn [length] in LL.
        assert (m = 0) by (destruct m; [reflexivity|]; rewrite Nat2N.inj_succ in Q; destruct (N.eq_0_gt_0_cases left); nia). subst m. constructor; [|constructor].
        destruct (N.eq_0_gt_0_cases left); lia.
    + destruct LR as [LR|LR]; [discriminate LR|]. rewrite LR, N.sub_diag.
      destruct (IH (left - 1)%N (pre ++ [xs]) (N.of_nat (length pre)) (r :: rest)) as (s & new & V & G & LN & C & F).
      * lia.
      * destruct (N.eq_0_gt_0_cases left) as [Z|Z]; [rewrite (S3 Z) in *|rewrite (S4 Z) in *]; lia.
      * rewrite app_length. cbn [length]. rewrite N.mod_small by lia. lia.
      * rewrite app_length. cbn [length]. lia.
      * rewrite <- app_assoc in V, G. cbn [app] in V, G. exists s, (xs :: new). split; [exact V|]. split; [exact G|]. split; [cbn [length]; rewrite LN; reflexivity|].
        split; [cbn [concat]; rewrite C; reflexivity|]. intros Q. constructor; [lia|]. apply F.
        rewrite <- E in Q. destruct (N.eq_0_gt_0_cases left) as [Z|Z]; [rewrite (S3 Z) in *|rewrite (S4 Z) in *]; lia.
Qed.
End Divide.

Theorem C144_groups : forall W threads counted ls, (0 < threads)%N -> 0 < counted -> length ls <= counted -> (N.of_nat counted + 2 < W)%N ->
  exists gs, groups W threads counted ls = Fine gs /\ concat gs = ls /\ length gs = N.to_nat (N.min threads (N.of_nat counted)) /\ (length ls = counted -> even gs /\ ~ In [] gs).
Proof.
  intros W threads counted ls HT HC HL HW. unfold groups. set (n := N.of_nat counted) in *. assert (HN : (0 < n)%N) by lia. set (gn := N.min threads n). assert (G : (0 < gn <= n)%N) by lia. clearbody gn.
  destruct (N.eqb_spec gn 0) as [Z|Z]; [lia|]. assert (D := N.div_mod n gn Z). assert (M := N.mod_lt n gn Z).
  assert (P : (0 < n / gn)%N) by (apply N.div_str_pos; lia). assert (P2 : (n / gn <= n)%N) by (apply N.div_le_upper_bound; [exact Z|]; nia).
  set (per := (n / gn)%N) in *. set (left := (n - gn * per)%N).
  assert (LN : N.of_nat (N.to_nat gn) = gn) by apply N2Nat.id.
  destruct (divide W per ltac:(lia) ltac:(lia) (N.to_nat gn) left [] (W - 1)%N ls) as (s & new & V & GG & LG & C & F).
  - rewrite LN. unfold left. lia.
  - rewrite LN. unfold lenN, left. nia.
  - cbn [length]. replace (W - 1 + 1)%N with W by lia. apply N.mod_same. lia.
  - cbn [length]. rewrite LN. lia.
  - cbn [app] in V, GG. rewrite V. exists new. rewrite GG. split; [reflexivity|]. split; [exact C|]. split; [exact LG|]. intros Q.
    assert (F' : Forall (fun g => lenN g = per \/ lenN g = (per + 1)%N) new) by (apply F; rewrite LN; unfold lenN, left; rewrite Q; change (N.of_nat counted) with n; clear - D; clearbody per n; revert D; generalize (n mod gn)%N, (gn * per)%N; intros; lia).
    rewrite Forall_forall in F'. split.
    + intros g h Ig Ih. apply F' in Ig, Ih. unfold lenN in Ig, Ih. lia.
    + intros I0. apply F' in I0. unfold lenN in I0. cbn [length] in I0. lia.
Qed.
Print Assumptions C144_groups.
Example C144_groups_example : groups (2^64) 3 8 [1; 2; 3; 4; 5; 6; 7; 8] = Fine [[1; 2; 3]; [4; 5; 6]; [7; 8]] /\ groups (2^64) 3 8 [1; 2; 3; 4; 5; 6; 7] = Fine [[1; 2; 3]; [4; 5; 6]; [7]].
Proof. vm_compute. split; reflexivity. Qed.

(** ** what is sent over a link *)
Lemma runs_filter {A} (f : A -> bool) ps t : runs ps t -> forall q1 p q2, ps = q1 ++ p :: q2 -> Forall (fun q => filter f q = []) q1 -> Forall (fun q => filter f q = []) q2 -> filter f t = filter f p.
Proof.
  induction 1 as [ps F|ps1 a p0 ps2 t H IH]; intros q1 p q2 E F1 F2.
  - subst ps. apply Forall_app in F as (_ & F). apply Forall_inv in F. rewrite F. reflexivity.
  - apply app_eq_app in E as (l & [(E1 & E2)|(E1 & E2)]).
    + destruct l as [|b l]; cbn [app] in E2.
      * injection E2 as -> ->. rewrite app_nil_r in E1. subst ps1. cbn [filter]. rewrite (IH q1 p0 ps2 eq_refl F1 F2). reflexivity.
      * injection E2 as <- E2. subst q2. apply Forall_app in F2 as (G1 & G2). assert (Q := Forall_inv G2). cbn beta in Q. cbn [filter] in Q. destruct (f a) eqn:FA; [discriminate Q|]. cbn [filter]. rewrite FA.
        apply (IH q1 p (l ++ p0 :: ps2)); [rewrite E1, <- app_assoc; reflexivity|exact F1|]. apply Forall_app. split; [exact G1|]. constructor; [exact Q|exact (Forall_inv_tail G2)].
    + destruct l as [|b l]; cbn [app] in E2.
      * injection E2 as <- <-. rewrite app_nil_r in E1. subst q1. cbn [filter]. rewrite (IH ps1 p0 ps2 eq_refl F1 F2). reflexivity.
      * injection E2 as <- E2. subst q1. apply Forall_app in F1 as (G1 & G2). assert (Q := Forall_inv G2). cbn beta in Q. cbn [filter] in Q. destruct (f a) eqn:FA; [discriminate Q|]. cbn [filter]. rewrite FA.
        apply (IH (ps1 ++ p0 :: l) p q2); [rewrite E2, <- app_assoc; reflexivity| |exact F2]. apply Forall_app. split; [exact G1|]. constructor; [exact Q|exact (Forall_inv_tail G2)].
Qed.
Lemma over_one l g (i : nat) : NoDup g -> filter (fun e => fst e =? l) (map (fun x => (x, i)) g) = if existsb (Nat.eqb l) g then [(l, i)] else [].
Proof.
  induction g as [|x g IH]; intros ND; [reflexivity|]. apply NoDup_cons_iff in ND as (N1 & N2). cbn [map filter existsb fst]. rewrite (Nat.eqb_sym x l). destruct (Nat.eqb_spec l x) as [->|X]; cbn [orb].
  - rewrite (IH N2). destruct (existsb (Nat.eqb x) g) eqn:E; [|reflexivity]. apply existsb_exists in E as (y & Y1 & Y2). apply Nat.eqb_eq in Y2. subst y. destruct (N1 Y1).
  - exact (IH N2).
Qed.
Lemma over_thread l g num : NoDup g -> filter (fun e => fst e =? l) (thread_sends g num) = if existsb (Nat.eqb l) g then map (fun i => (l, i)) (seq 0 num) else [].
Proof.
  intros ND. unfold thread_sends. generalize 0 as k. induction num as [|num IH]; intros k; [destruct (existsb _ g); reflexivity|]. cbn [seq map concat].
  rewrite filter_app, (over_one l g k ND), IH. destruct (existsb _ g); reflexivity.
Qed.
Lemma nodup_app {A} (a b : list A) : NoDup (a ++ b) -> NoDup a /\ NoDup b /\ (forall x, In x a -> ~ In x b).
Proof.
  induction a as [|x a IH]; cbn [app]; intros H; [split; [constructor|split; [exact H|intros y []]]|]. apply NoDup_cons_iff in H as (H1 & H2). destruct (IH H2) as (I1 & I2 & I3).
  split; [constructor; [intros Q; apply H1; apply in_or_app; left; exact Q|exact I1]|]. split; [exact I2|]. intros y [->|Y]; [intros Q; apply H1; apply in_or_app; right; exact Q|exact (I3 y Y)].
Qed.

Theorem C144_each_link : forall W threads ls num gs t, NoDup ls -> (0 < threads)%N -> ls <> [] -> (N.of_nat (length ls) + 2 < W)%N -> groups W threads (length ls) ls = Fine gs ->
  runs (map (fun g => thread_sends g num) gs) t -> forall l, over l t = if existsb (Nat.eqb l) ls then seq 0 num else [].
Proof.
  intros W threads ls num gs t ND HT NE HW HG R l.
  assert (HC : 0 < length ls) by (destruct ls; [destruct (NE eq_refl)|cbn [length]; lia]).
  destruct (C144_groups W threads (length ls) ls HT HC (le_n _) HW) as (gs' & E & C & _ & _). rewrite HG in E. injection E as <-. rewrite <- C in ND. rewrite <- C. clear C HG HC HW NE.
  assert (NDS : forall g, In g gs -> NoDup g).
  { clear R. intros g Ig. apply in_split in Ig as (g1 & g2 & ->). rewrite concat_app in ND. cbn [concat] in ND. apply nodup_app in ND as (_ & ND & _). apply nodup_app in ND as (ND & _ & _). exact ND. }
  unfold over. destruct (existsb (Nat.eqb l) (concat gs)) eqn:E.
  - apply existsb_exists in E as (x & Ix & X). apply Nat.eqb_eq in X. subst x. apply in_concat in Ix as (g & Ig & Il). assert (N0 := NDS g Ig). apply in_split in Ig as (g1 & g2 & ->).
    assert (OUT : forall h, In h g1 \/ In h g2 -> filter (fun e => fst e =? l) (thread_sends h num) = []).
    { intros h Ih. assert (Ih' : In h (g1 ++ g :: g2)) by (apply in_or_app; cbn [In]; tauto). rewrite (over_thread l h num (NDS h Ih')).
      destruct (existsb (Nat.eqb l) h) eqn:Q; [|reflexivity]. apply existsb_exists in Q as (y & Y1 & Y2). apply Nat.eqb_eq in Y2. subst y. exfalso.
      rewrite concat_app in ND. cbn [concat] in ND. apply nodup_app in ND as (D1 & D2 & D3). apply nodup_app in D2 as (D4 & D5 & D6). destruct Ih as [Ih|Ih].
      - apply (D3 l); [apply in_concat; exists h; auto|apply in_or_app; left; exact Il].
      - apply (D6 l Il). apply in_concat. exists h; auto. }
    rewrite map_app in R. cbn [map] in R. rewrite (runs_filter _ _ t R _ _ _ eq_refl).
    + rewrite (over_thread l g num N0). assert (Q : existsb (Nat.eqb l) g = true) by (apply existsb_exists; exists l; split; [exact Il|apply Nat.eqb_refl]). rewrite Q, map_map. cbn [snd]. apply map_id.
    + apply Forall_forall. intros q Iq. apply in_map_iff in Iq as (h & <- & Ih). apply OUT. left. exact Ih.
    + apply Forall_forall. intros q Iq. apply in_map_iff in Iq as (h & <- & Ih). apply OUT. right. exact Ih.
  - destruct gs as [|g gs].
    { inversion R as [ps F Q1 Q2|ps1 a p ps2 t0 H Q1 Q2]; [reflexivity|]. destruct ps1; discriminate Q1. }
    assert (OUT : forall h, In h (g :: gs) -> filter (fun e => fst e =? l) (thread_sends h num) = []).
    { intros h Ih. rewrite (over_thread l h num (NDS h Ih)). destruct (existsb (Nat.eqb l) h) eqn:Q; [|reflexivity]. apply existsb_exists in Q as (y & Y1 & Y2). apply Nat.eqb_eq in Y2. subst y.
      assert (Z : existsb (Nat.eqb l) (concat (g :: gs)) = true) by (apply existsb_exists; exists l; split; [apply in_concat; exists h; auto|apply Nat.eqb_refl]). rewrite Z in E. discriminate E. }
    rewrite (runs_filter _ _ t R [] (thread_sends g num) (map (fun g => thread_sends g num) gs) eq_refl (Forall_nil _)).
    + rewrite (OUT g (or_introl eq_refl)). reflexivity.
    + apply Forall_forall. intros q Iq. apply in_map_iff in Iq as (h & <- & Ih). apply OUT. right. exact Ih.
Qed.
Print Assumptions C144_each_link.
Example C144_each_link_example : groups (2^64) 2 3 [5; 6; 7] = Fine [[5; 6]; [7]] /\ runs (map (fun g => thread_sends g 2) [[5; 6]; [7]]) [(5, 0); (7, 0); (6, 0); (5, 1); (6, 1); (7, 1)] /\
  over 6 [(5, 0); (7, 0); (6, 0); (5, 1); (6, 1); (7, 1)] = [0; 1].
Proof.
  split; [vm_compute; reflexivity|]. split; [|reflexivity]. cbn.
  apply (runs_step []). apply (runs_step [[(6, 0); (5, 1); (6, 1)]]). do 3 apply (runs_step []). apply (runs_step [[]]). apply runs_end. repeat constructor.
Qed.

(** ** the end of the test *)
Theorem C144_end : forall W n num len recv, (n * len < W)%N -> (100 * all_bytes n num len < 2^64)%N -> (0 < all_bytes n num len)%N -> (recv <= all_bytes n num len)%N ->
  total_conc W n num len = all_bytes n num len /\ finished recv (total_conc W n num len) = Fine (recv =? all_bytes n num len)%N.
Proof.
  intros W n num len recv HW H1 H2 H3. assert (T : total_conc W n num len = all_bytes n num len).
  { unfold total_conc, all_bytes in *. rewrite (N.mod_small _ _ HW). rewrite N.mod_small; [lia|]. nia. }
  split; [exact T|]. rewrite T. unfold finished, percent. set (a := all_bytes n num len) in *. clearbody a. destruct (N.eqb_spec a 0) as [Z|Z]; [lia|].
  rewrite (N.mod_small (100 * recv)) by lia. assert (Q : (100 * recv / a <= 100)%N) by (apply N.div_le_upper_bound; lia).
  rewrite N.mod_small by (apply (N.le_lt_trans _ _ _ Q); vm_compute; reflexivity). f_equal.
  destruct (N.eqb_spec recv a) as [->|X]; [rewrite N.div_mul by exact Z; reflexivity|]. apply N.leb_gt. apply N.div_lt_upper_bound; [exact Z|]. lia.
Qed.
Print Assumptions C144_end.
Example C144_end_example : total_conc (2^64) 16 1024 1024 = 16777216%N /\ finished 16777215 (total_conc (2^64) 16 1024 1024) = Fine false /\ finished 16777216 (total_conc (2^64) 16 1024 1024) = Fine true.
Proof. vm_compute. auto. Qed.

(** a link chosen by chance exists *)
Theorem C144_random : forall W rmax r ls, ls <> [] -> (0 < rmax)%N -> (r <= rmax)%N -> (rmax * N.of_nat (length ls) < 2^64)%N -> (N.of_nat (length ls) < W)%N -> exists l, random_link W rmax r ls = Some l /\ In l ls.
Proof.
  intros W rmax r ls NE HR Hr HM HW. unfold random_link, random_index. assert (HL : 0 < length ls) by (destruct ls; [destruct (NE eq_refl)|cbn [length]; lia]).
  set (n := N.of_nat (length ls)) in *. assert (E : ((n + W - 1) mod W = n - 1)%N) by (replace (n + W - 1)%N with (n - 1 + 1 * W)%N by lia; rewrite N.mod_add by lia; apply N.mod_small; lia).
  rewrite E. assert (P : (r * (n - 1) <= rmax * (n - 1))%N) by (apply N.mul_le_mono_r; exact Hr). rewrite (N.mod_small (r * (n - 1))) by nia.
  assert (Q : (r * (n - 1) / rmax <= n - 1)%N) by (apply N.div_le_upper_bound; [lia|exact P]). rewrite N.mod_small by lia.
  destruct (nth_error ls (N.to_nat (r * (n - 1) / rmax))) as [l|] eqn:X; [exists l; split; [reflexivity|exact (nth_error_In _ _ X)]|]. apply nth_error_None in X. lia.
Qed.
Print Assumptions C144_random.
Example C144_random_example : random_link (2^64) 2147483647 2147483647 [4; 9; 2] = Some 2 /\ random_link (2^64) 2147483647 1500000000 [4; 9; 2] = Some 9 /\ random_link (2^64) 2147483647 0 [4; 9; 2] = Some 4.
Proof. vm_compute. auto. Qed.

(** ** what is not so *)
(** English: however many links there are, starting a test neither divides by zero nor leaves an array. *)
Definition C144_statement : Prop := forall W threads ls, (W = 2^32 \/ W = 2^64)%N -> (1 <= threads <= 16)%N -> (N.of_nat (length ls) <= 4096)%N -> exists gs, groups W threads (length ls) ls = Fine gs /\ concat gs = ls.
Theorem C144_refuted : exists W threads ls, (W = 2^64 /\ 1 <= threads <= 16)%N /\ (N.of_nat (length ls) <= 4096)%N /\ groups W threads (length ls) ls = DivByZero.
Proof. exists (2^64)%N, 8%N, []. split; [lia|]. split; [cbn [length]; lia|]. vm_compute. reflexivity. Qed.
Print Assumptions C144_refuted.
Theorem C144_statement_refuted : ~ C144_statement.
Proof. intros H. destruct (H (2^64)%N 8%N [] (or_intror eq_refl) ltac:(lia) ltac:(cbn [length]; lia)) as (gs & E & _). vm_compute in E. discriminate E. Qed.
Print Assumptions C144_statement_refuted.
(** English: where size_t has 32 bits the number of bytes of a test of the other two kinds is computed in size_t: with 4 GiB it is 0, and the
    test divides by zero; with a little more it is small, and the test is finished at once. *)
Theorem C144_total_refuted : all_bytes 16 262144 1024 = (2^32)%N /\ finished 0 (total_one (2^32) 16 262144 1024) = DivByZero /\
  all_bytes 16 262145 1024 = (2^32 + 16384)%N /\ finished 16384 (total_one (2^32) 16 262145 1024) = Fine true /\ finished 1024 (total_rand (2^32) 4194305 1024) = Fine true.
Proof. vm_compute. auto. Qed.
Print Assumptions C144_total_refuted.
