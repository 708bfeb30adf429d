(** C143: filling a basic_buffer piece by piece moves each byte only a few times. *)
From Coq Require Import List NArith Lia Bool.
From Verif Require Import M_Bytes M_Buffer S_Buffer L_Bytes L_Buffer S_Grow.
Import ListNotations.
Open Scope N_scope.

(** the capacity reserve chooses for [req] bytes when the capacity is [cap] *)
Definition next_cap (e : benv) (cap req : N) : N :=
  let c := if req <? grown e cap then N.min (grown e cap) UMAX else req in
  let n := N.land c 4294967280 in
  if n <? c then let m := (n + 16) mod size_t_range e in if (m <? c) || (UMAX <? m) then UMAX else m else n.

Lemma next_cap_ge e cap req : env_ok e -> req <= UMAX -> req <= next_cap e cap req /\ next_cap e cap req <= UMAX /\ (next_cap e cap req = UMAX \/ next_cap e cap req mod 16 = 0) /\
  (grown e cap <= UMAX -> grown e cap <= next_cap e cap req).
Proof.
  intros HE HR. unfold next_cap. set (c := if req <? grown e cap then N.min (grown e cap) UMAX else req).
  assert (C : req <= c /\ c <= UMAX /\ (grown e cap <= UMAX -> grown e cap <= c)) by (subst c; destruct (N.ltb_spec req (grown e cap)); lia).
  destruct C as (C1 & C2 & C3). clearbody c. rewrite (land_mask c C2). assert (D := N.div_mod c 16 ltac:(lia)). assert (L := N.mod_lt c 16 ltac:(lia)).
  assert (W := env_range e HE). assert (M : c / 16 * 16 mod 16 = 0) by (apply N.mod_mul; lia).
  destruct (N.ltb_spec (c / 16 * 16) c) as [X|X].
  - destruct (((c / 16 * 16 + 16) mod size_t_range e <? c) || (UMAX <? (c / 16 * 16 + 16) mod size_t_range e)) eqn:Q; [split; [lia|]; split; [lia|]; split; [left; reflexivity|]; intros; lia|].
    apply orb_false_elim in Q as (Q1 & Q2). apply N.ltb_ge in Q1, Q2.
    assert (E : (c / 16 * 16 + 16) mod size_t_range e = c / 16 * 16 + 16 \/ (c / 16 * 16 + 16) mod size_t_range e = 0).
    { destruct HE as [HE|HE]; rewrite HE in *; unfold UMAX in *.
      - destruct (N.lt_ge_cases (c / 16 * 16 + 16) (2 ^ 32)) as [Y|Y]; [left; apply N.mod_small; exact Y|right].
        replace (c / 16 * 16 + 16) with (2 ^ 32) by (change (2 ^ 32) with 4294967296 in *; lia). reflexivity.
      - left. apply N.mod_small. change (2 ^ 64) with 18446744073709551616. lia. }
    destruct E as [E|E]; rewrite E in *; [|lia]. split; [lia|]. split; [lia|]. split; [right; replace (c / 16 * 16 + 16) with ((c / 16 + 1) * 16) by lia; apply N.mod_mul; lia|]. intros; lia.
  - split; [lia|]. split; [lia|]. split; [right; exact M|]. intros; lia.
Qed.

Lemma reserve_cap e b req b' : env_ok e -> bb_ok b -> bcap b < req -> bb_reserve e b req = Done b' -> req <= UMAX /\ bcap b' = next_cap e (bcap b) req.
Proof.
  intros HE HB L H. destruct (ok_le b HB) as (S1 & S2). unfold bb_reserve in H. destruct (N.ltb_spec UMAX req) as [X|X]; [discriminate H|]. split; [exact X|].
  destruct (N.ltb_spec req (bsize b)) as [Y|Y]; [lia|]. destruct (N.eqb_spec req 0) as [Z|Z]; [lia|]. destruct (N.eqb_spec req (bcap b)) as [U|U]; [lia|].
  assert (G := next_cap_ge e (bcap b) req HE X). unfold next_cap in *. destruct (N.ltb_spec (bcap b) req) as [V|V]; [|lia]. cbn [andb] in H. cbv zeta in H, G. cbv zeta.
  match type of H with (if ?a =? _ then _ else _) = _ => set (c := a) in * end.
  destruct (N.eqb_spec c (bcap b)) as [T|T]; [injection H as <-; exact (eq_sym T)|]. destruct (alloc_ok e); [|discriminate H]. cbn [negb] in H. injection H as <-. cbn [bcap].
  destruct G as (_ & G & _). clearbody c. unfold UMAX in *. apply N.mod_small. lia.
Qed.

(** what one of the calls does to the capacity *)
Lemma grow_cap e b n bytes b' : env_ok e -> bb_ok b -> 0 < n -> lenN bytes = n ->
  (if too_long b n then Throw b
   else bthen (if bcap b <? (bsize b + n) mod size_t_range e then bb_reserve e b ((bsize b + n) mod size_t_range e) else Done b) (fun b => bb_put b bytes)) = Done b' ->
  bsize b' = bsize b + n /\ bsize b' <= UMAX /\ (bcap b' = bcap b \/ bcap b < bsize b' /\ bcap b' = next_cap e (bcap b) (bsize b')).
Proof.
  intros HE HB P L H. assert (G := grow_put e b n bytes HE HB P L). rewrite H in G. destruct G as (K & C & U).
  assert (SZ : bsize b' = bsize b + n).
  { destruct (content_len b' K) as (E1 & _). destruct (content_len b HB) as (E2 & _). rewrite <- E1, C, lenN_app, E2, L. reflexivity. }
  split; [exact SZ|]. rewrite SZ. split; [exact U|]. destruct (too_long b n); [discriminate H|].
  rewrite (N.mod_small (bsize b + n)) in H by (apply (N.le_lt_trans _ UMAX); [exact U|exact (env_range e HE)]).
  assert (PC : forall b1, bb_put b1 bytes = Done b' -> bcap b' = bcap b1).
  { intros b1 Q. unfold bb_put in Q. destruct (bmem b1); [|discriminate Q]. destruct (blit l (bsize b1) bytes); [|discriminate Q]. injection Q as <-. reflexivity. }
  destruct (N.ltb_spec (bcap b) (bsize b + n)) as [X|X]; cbn [bthen] in H; [|left; exact (PC b H)].
  destruct (bb_reserve e b (bsize b + n)) as [b1|b1|q] eqn:R; cbn [bthen] in H; [|discriminate H|discriminate H]. right. split; [exact X|]. rewrite (PC b1 H).
  exact (proj2 (reserve_cap e b (bsize b + n) b1 HE HB X R)).
Qed.
Lemma append_cap e b p n b' : env_ok e -> bb_ok b -> match p with Some m => n <= lenN m | None => True end -> bb_append e b p n = Done b' ->
  bsize b <= bsize b' /\ bsize b' <= UMAX /\ (bcap b' = bcap b \/ bcap b < bsize b' /\ bcap b' = next_cap e (bcap b) (bsize b')).
Proof.
  intros HE HB HP H. destruct (ok_le b HB) as (S1 & S2). unfold bb_append in H. destruct p as [m|]; [|injection H as <-; repeat split; try lia; left; reflexivity].
  destruct (N.eqb_spec n 0) as [Z|Z]; [injection H as <-; repeat split; try lia; left; reflexivity|].
  assert (F : fetch m 0 n = Ok (takeN n m)). { unfold fetch. rewrite N.add_0_l. destruct (N.leb_spec n (lenN m)); [reflexivity|lia]. }
  rewrite F in H. assert (LB : lenN (takeN n m) = n) by (rewrite lenN_takeN; lia). destruct (grow_cap e b n (takeN n m) b' HE HB ltac:(lia) LB H) as (G1 & G2 & G3). repeat split; [lia|exact G2|exact G3].
Qed.
Lemma adds_cap e x y o x' y' : env_ok e -> bb_ok x -> bb_ok y -> op_ok (size_t_range e) o -> adds o = true -> bb_step e x y o = PDone x' y' ->
  bsize x <= bsize x' /\ bsize x' <= UMAX /\ (bcap x' = bcap x \/ bcap x < bsize x' /\ bcap x' = next_cap e (bcap x) (bsize x')).
Proof.
  intros HE HX HY HO A H. destruct (ok_le x HX) as (S1 & S2).
  assert (LD : forall r, lift_out r y = PDone x' y' -> r = Done x') by (intros [b|b|q] Q; cbn [lift_out] in Q; [injection Q as <- _; reflexivity|discriminate Q|discriminate Q]).
  destruct o as [p n|t|n c|p n|pos n|n|p n|n| | | | |pos|]; try discriminate A; cbn [bb_step] in H; apply LD in H.
  - apply (append_cap e x p n x' HE HX); [|exact H]. cbn [op_ok] in HO. destruct p; [apply HO|exact I].
  - apply (append_cap e x (Some (c_str t)) (lenN t) x' HE HX); [|exact H]. unfold c_str. rewrite lenN_app. lia.
  - unfold bb_fill in H. destruct (N.eqb_spec n 0) as [Z|Z]; [injection H as <-; repeat split; try lia; left; reflexivity|].
    assert (LB : lenN (repeat c (N.to_nat n)) = n) by (unfold lenN; rewrite repeat_length, N2Nat.id; reflexivity).
    destruct (grow_cap e x n _ x' HE HX ltac:(lia) LB H) as (G1 & G2 & G3). repeat split; [lia|exact G2|exact G3].
  - apply (append_cap e x (bmem y) (bb_size y) x' HE HX); [exact (other_ptr y HY)|exact H].
Qed.

(** the growth factor: 2, or 3/2 with Microsoft's compiler *)
Definition enough (e : benv) (old new : N) : Prop := if msvc e then 3 * old <= 2 * new else 2 * old <= new.
Definition tidy (c : N) : Prop := c = UMAX \/ c mod 16 = 0.
Lemma next_enough e cap req : env_ok e -> tidy cap -> cap < 2147483648 -> req <= UMAX -> enough e cap (next_cap e cap req) /\ tidy (next_cap e cap req).
Proof.
  intros HE T L HR. destruct (next_cap_ge e cap req HE HR) as (G1 & G2 & G3 & G4). split; [|exact G3]. unfold enough. unfold grown in G4.
  destruct T as [T|T]; [unfold UMAX in T; lia|]. assert (D := N.div_mod cap 16 ltac:(lia)). rewrite T in D. destruct (msvc e).
  - assert (E : cap / 2 = 8 * (cap / 16)) by (rewrite D at 1; replace (16 * (cap / 16) + 0) with (8 * (cap / 16) * 2) by lia; apply N.div_mul; lia).
    rewrite E in G4. rewrite N.mod_small in G4 by (unfold UMAX; lia). unfold UMAX in G4. lia.
  - rewrite N.mod_small in G4 by (unfold UMAX; lia). unfold UMAX in G4. lia.
Qed.

(** the work, given the bytes moved so far *)
Definition times (e : benv) : N := if msvc e then 3 else 2.
Lemma filled_work e y os : env_ok e -> bb_ok y -> forall x m x' k, bb_ok x -> tidy (bcap x) -> m <= (times e - 1) * bcap x -> m <= times e * bsize x -> Forall (op_ok (size_t_range e)) os -> forallb adds os = true ->
  filled e x y os = Some (x', k) -> bsize x' <= 2147483648 -> m + k <= times e * bsize x' /\ bsize x <= bsize x' /\ bb_ok x'.
Proof.
  intros HE HY. induction os as [|o os IH]; intros x m x' k HX T B1 B2 F A H L; cbn [filled] in H.
  - injection H as <- <-. rewrite N.add_0_r. split; [exact B2|]. split; [lia|exact HX].
  - apply Forall_cons_iff in F as (F1 & F2). cbn [forallb] in A. apply andb_prop in A as (A1 & A2).
    assert (SO := bb_step_ok e x y o HE HX HY F1). destruct (bb_step e x y o) as [x1 y1|x1 y1|q] eqn:ST; [|discriminate H|discriminate H].
    destruct SO as (K1 & _). destruct (adds_cap e x y o x1 y1 HE HX HY F1 A1 ST) as (G1 & G2 & G3).
    destruct (filled e x1 y os) as [(x2, n)|] eqn:FL; [|discriminate H]. injection H as <- <-.
    destruct (N.eqb_spec (bcap x1) (bcap x)) as [E|E].
    + destruct (IH x1 m x2 n K1) as (R1 & R2 & R3); try assumption; [rewrite E; exact T|rewrite E; exact B1| |].
      { apply (N.le_trans _ _ _ B2). apply N.mul_le_mono_l. exact G1. }
      split; [|split; [lia|exact R3]]. rewrite N.add_0_l. exact R1.
    + destruct G3 as [G3|(G3 & G4)]; [destruct (E G3)|].
      assert (X2 : bsize x1 <= bsize x2).
      { destruct (IH x1 0 x2 n K1) as (_ & R2 & _); try assumption; try apply N.le_0_l. rewrite G4. apply next_cap_ge; assumption. }
      destruct (next_enough e (bcap x) (bsize x1) HE T ltac:(lia) G2) as (N1 & N2). rewrite <- G4 in N1, N2.
      destruct (IH x1 (m + bcap x) x2 n K1) as (R1 & _ & R3); try assumption.
      * unfold enough in N1. unfold times in *. destruct (msvc e); lia.
      * unfold times in *. destruct (msvc e); lia.
      * split; [|split; [lia|exact R3]]. lia.
Qed.

(** English: let an empty basic_buffer be filled by any number of append calls with pieces of any sizes, none of which throws. If it holds
    at most 2 GiB at the end, all reallocations together had to move at most twice (with Microsoft's compiler three times) as many bytes as
    it holds. *)
Definition C143_statement : Prop := forall e y os x moved, env_ok e -> bb_ok y -> Forall (op_ok (size_t_range e)) os -> forallb adds os = true ->
  filled e detached y os = Some (x, moved) -> moved <= 3 * lenN (content x).
Theorem C143_partial : forall e y os x moved, env_ok e -> bb_ok y -> Forall (op_ok (size_t_range e)) os -> forallb adds os = true ->
  filled e detached y os = Some (x, moved) -> lenN (content x) <= 2147483648 -> moved <= (if msvc e then 3 else 2) * lenN (content x).
Proof.
  intros e y os x moved HE HY F A H L.
  assert (KX : bb_ok x).
  { clear L. assert (K0 : bb_ok detached) by (split; reflexivity). revert K0 H. generalize detached as x0. revert moved. induction os as [|o os IH]; intros moved x0 K0 H; cbn [filled] in H; [injection H as <- _; exact K0|].
    apply Forall_cons_iff in F as (F1 & F2). cbn [forallb] in A. apply andb_prop in A as (A1 & A2). assert (SO := bb_step_ok e x0 y o HE K0 HY F1).
    destruct (bb_step e x0 y o) as [x1 y1|x1 y1|q]; [|discriminate H|discriminate H]. destruct (filled e x1 y os) as [(x2, n)|] eqn:FL; [|discriminate H]. injection H as -> _.
    exact (IH F2 A2 n x1 (proj1 SO) FL). }
  destruct (content_len x KX) as (E & _). rewrite E in *.
  assert (K0 : bb_ok detached) by (split; reflexivity).
  destruct (filled_work e y os HE HY detached 0 x moved K0) as (R & _); try assumption; try apply N.le_0_l; try (right; reflexivity).
Qed.
Print Assumptions C143_partial.

Definition env64 : benv := mk_benv (2 ^ 64) false true (fun _ => x00).
Example C143_example : exists x, filled env64 detached detached [OFill 10 x07; OAppendStr [x07; x07; x07]; OFill 30 x07; OFill 60 x07; OFill 200 x07] = Some (x, 16 + 48 + 112) /\ bcap x = 304 /\ lenN (content x) = 303 /\
  Forall (op_ok (2 ^ 64)) [OFill 10 x07; OAppendStr [x07; x07; x07]; OFill 30 x07; OFill 60 x07; OFill 200 x07].
Proof.
  eexists. split; [vm_compute; reflexivity|]. split; [vm_compute; reflexivity|]. split; [vm_compute; reflexivity|]. repeat constructor; cbn [In]; try (vm_compute; reflexivity). intros X. repeat (destruct X as [X|X]; [discriminate X|]). exact X.
Qed.

(** one fill, when memory is there *)
Lemma fill_exact e x y n c : env_ok e -> alloc_ok e = true -> bb_ok x -> 0 < n -> bsize x + n <= UMAX -> bcap x < bsize x + n ->
  exists x', bb_step e x y (OFill n c) = PDone x' y /\ bb_ok x' /\ bsize x' = bsize x + n /\ bcap x' = next_cap e (bcap x) (bsize x + n).
Proof.
  intros HE AL HX P L G. assert (F := fill_ok e x n c HE HX). cbn [bb_step]. destruct (bb_fill e x n c) as [x'|x'|q] eqn:E; [|destruct F as (_ & F); specialize (F AL); lia|destruct F].
  destruct F as (K & _ & _). exists x'. split; [reflexivity|]. split; [exact K|]. unfold bb_fill in E. destruct (N.eqb_spec n 0) as [Z|Z]; [lia|].
  assert (LB : lenN (repeat c (N.to_nat n)) = n) by (unfold lenN; rewrite repeat_length, N2Nat.id; reflexivity).
  destruct (grow_cap e x n _ x' HE HX P LB E) as (G1 & G2 & G3). split; [exact G1|]. destruct G3 as [G3|(_ & G3)]; [destruct (ok_le x' K) as (Q & _); lia|]. rewrite <- G1. exact G3.
Qed.
Lemma next_far j : j < 134217727 -> next_cap env64 (2147483648 + 16 * j) (2147483648 + 16 * j + 16) = 2147483648 + 16 * j + 16.
Proof.
  intros H. unfold next_cap, grown. cbn [msvc env64 size_t_range].
  assert (G : (2 * (2147483648 + 16 * j)) mod (UMAX + 1) = 32 * j).
  { replace (2 * (2147483648 + 16 * j)) with (32 * j + 1 * (UMAX + 1)) by (unfold UMAX; lia). rewrite N.mod_add by (unfold UMAX; lia). apply N.mod_small. unfold UMAX. lia. }
  rewrite G. destruct (N.ltb_spec (2147483648 + 16 * j + 16) (32 * j)) as [X|X]; [lia|]. cbv zeta. rewrite land_mask by (unfold UMAX; lia).
  replace (2147483648 + 16 * j + 16) with ((134217729 + j) * 16) by lia. rewrite N.div_mul by lia. rewrite N.ltb_irrefl. reflexivity.
Qed.
Lemma far_work k : forall x j, bb_ok x -> bsize x = 2147483648 + 16 * j -> bcap x = 2147483648 + 16 * j -> j + N.of_nat k <= 134217727 ->
  exists x' m, filled env64 x detached (repeat (OFill 16 x07) k) = Some (x', m) /\ bb_ok x' /\ bsize x' = 2147483648 + 16 * (j + N.of_nat k) /\ 2147483648 * N.of_nat k <= m.
Proof.
  assert (HE : env_ok env64) by (right; reflexivity).
  induction k as [|k IH]; intros x j HX S C L.
  - exists x, 0. cbn [repeat filled]. split; [reflexivity|]. split; [exact HX|]. split; [rewrite S; lia|lia].
  - rewrite Nat2N.inj_succ in *. destruct (fill_exact env64 x detached 16 x07 HE eq_refl HX ltac:(lia) ltac:(unfold UMAX; lia) ltac:(lia)) as (x1 & E & K & S1 & C1).
    rewrite S, C in C1. rewrite next_far in C1 by lia. rewrite S in S1.
    destruct (IH x1 (j + 1) K ltac:(lia) ltac:(lia) ltac:(lia)) as (x' & m & F & K' & S' & M).
    exists x', ((if bcap x1 =? bcap x then 0 else bcap x) + m). split; [|split; [exact K'|split; [lia|]]].
    + change (repeat (OFill 16 x07) (Datatypes.S k)) with (OFill 16 x07 :: repeat (OFill 16 x07) k). cbn [filled]. rewrite E. fold (bb_step env64 x detached). rewrite F. reflexivity.
    + destruct (N.eqb_spec (bcap x1) (bcap x)) as [Q|Q]; lia.
Qed.

(** English: 2 * cap is computed in unsigned: from 2 GiB on the capacity is no longer doubled; a buffer of 2 GiB that is filled on with k
    times 16 bytes is moved k times as a whole. *)
Theorem C143_refuted : forall k, N.of_nat k <= 134217727 -> exists x m, filled env64 detached detached (OFill 2147483648 x07 :: repeat (OFill 16 x07) k) = Some (x, m) /\
  lenN (content x) = 2147483648 + 16 * N.of_nat k /\ 2147483648 * N.of_nat k <= m.
Proof.
  intros k L. assert (HE : env_ok env64) by (right; reflexivity). assert (K0 : bb_ok detached) by (split; reflexivity).
  destruct (fill_exact env64 detached detached 2147483648 x07 HE eq_refl K0 ltac:(lia) ltac:(cbn [bsize detached]; unfold UMAX; lia) ltac:(cbn [bsize bcap detached]; lia)) as (x1 & E & K & S1 & C1).
  cbn [bsize bcap detached] in S1, C1. rewrite N.add_0_l in S1, C1. assert (C2 : next_cap env64 0 2147483648 = 2147483648) by (vm_compute; reflexivity). rewrite C2 in C1.
  destruct (far_work k x1 0 K) as (x' & m & F & K' & S' & M); [rewrite S1; reflexivity|rewrite C1; reflexivity|exact L|].
  exists x', m. split; [|split; [destruct (content_len x' K') as (Q & _); rewrite Q; exact S'|exact M]].
  assert (Z : bcap x1 =? bcap detached = false) by (rewrite C1; reflexivity).
  change (filled env64 detached detached (OFill 2147483648 x07 :: repeat (OFill 16 x07) k)) with
    (match bb_step env64 detached detached (OFill 2147483648 x07) with PDone x1 _ => match filled env64 x1 detached (repeat (OFill 16 x07) k) with
       Some (x2, n) => Some (x2, (if bcap x1 =? bcap detached then 0 else bcap detached) + n) | None => None end | _ => None end).
  rewrite E, F, Z. reflexivity.
Qed.
Print Assumptions C143_refuted.
Theorem C143_statement_refuted : ~ C143_statement.
Proof.
  intros H. assert (L : N.of_nat 4 <= 134217727) by (vm_compute; discriminate). destruct (C143_refuted 4 L) as (x & m & F & S & M).
  assert (HE : env_ok env64) by (right; reflexivity). assert (K0 : bb_ok detached) by (split; reflexivity).
  assert (Q := H env64 detached (OFill 2147483648 x07 :: repeat (OFill 16 x07) 4) x m HE K0). specialize (Q ltac:(repeat constructor) eq_refl F). rewrite S in Q. change (N.of_nat 4) with 4 in *. lia.
Qed.
Print Assumptions C143_statement_refuted.
