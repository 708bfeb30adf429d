(** C54, C55, C75: transferring files over several links. *)
From Coq Require Import List ZArith Bool Arith Lia.
From Verif Require Import M_Bytes M_File.
Import ListNotations.
Open Scope Z_scope.

(** ** C54: the ranges of the links cover the file exactly once *)
Theorem C54_covered_once length n p : 0 < n -> 0 <= p < length -> exists! i, 0 <= i < n /\ exists o k, range_request length n i = Some (o, k) /\ o <= p < o + k.
Proof.
  intros N P. set (q := Z.quot length n). assert (Q : q = length / n) by (apply Z.quot_div_nonneg; lia). assert (Q0 : 0 <= q) by (rewrite Q; apply Z.div_pos; lia).
  assert (QN : q * n <= length) by (rewrite Q; pose proof (Z.mul_div_le length n N); lia).
  (* the link of p *)
  assert (U : forall i o k, range_request length n i = Some (o, k) -> o = q * i /\ 0 < k /\ k = if n - 1 =? i then length - q * i else q).
  { intros i o k H. unfold range_request, slice in H. fold q in H. destruct (Z.ltb_spec 0 (if n - 1 =? i then length - q * i else q)) as [L|L]; [|discriminate]. inversion H; subst. auto. }
  assert (V : forall i, 0 <= i < n -> q * i <= p < q * i + (if n - 1 =? i then length - q * i else q) -> exists o k, range_request length n i = Some (o, k) /\ o <= p < o + k).
  { intros i I H. unfold range_request, slice. fold q. destruct (Z.ltb_spec 0 (if n - 1 =? i then length - q * i else q)) as [L|L]; [|lia]. do 2 eexists. split; [reflexivity|]. exact H. }
  assert (UN : forall i j, 0 <= i < n -> 0 <= j < n -> i < j -> q * i <= p < q * i + (if n - 1 =? i then length - q * i else q) -> q * j <= p -> False).
  { intros i j I J L H1 H2. destruct (Z.eqb_spec (n - 1) i); [lia|]. nia. }
  destruct (Z.ltb_spec p (q * (n - 1))) as [L|L].
  - assert (QP : 0 < q) by nia. exists (p / q). pose proof (Z.div_mod p q ltac:(lia)) as DM. pose proof (Z.mod_pos_bound p q QP) as MB.
    assert (D0 : 0 <= p / q) by (apply Z.div_pos; lia). assert (D1 : p / q < n - 1) by (apply Z.div_lt_upper_bound; lia).
    assert (I : 0 <= p / q < n) by lia. assert (H : q * (p / q) <= p < q * (p / q) + (if n - 1 =? p / q then length - q * (p / q) else q)).
    { destruct (Z.eqb_spec (n - 1) (p / q)); lia. }
    split; [split; [exact I|apply V; assumption]|]. intros j (J & o & k & R & B). apply U in R as (-> & _ & ->). destruct (Z.lt_total (p / q) j) as [X|[X|X]]; [|exact X|]; exfalso; [eapply (UN (p / q) j); eauto; lia|eapply (UN j (p / q)); eauto; lia].
  - exists (n - 1). assert (H : q * (n - 1) <= p < q * (n - 1) + (if n - 1 =? n - 1 then length - q * (n - 1) else q)) by (rewrite Z.eqb_refl; lia).
    split; [split; [lia|apply V; [lia|exact H]]|]. intros j (J & o & k & R & B). apply U in R as (-> & _ & ->). destruct (Z.lt_total (n - 1) j) as [X|[X|X]]; [lia|exact X|]. exfalso. eapply (UN j (n - 1)); eauto; lia.
Qed.
Print Assumptions C54_covered_once.
(** Ranges lie within the file, are not empty, follow each other, and the server accepts each of them. *)
Theorem C54_inside length n i o k : 0 < n -> 0 <= length < OFF_RANGE -> 0 <= i < n -> range_request length n i = Some (o, k) ->
  0 <= o /\ 0 < k /\ o + k <= length /\ server_accepts length o k = Ok true /\
  (i + 1 < n -> fst (slice length n (i + 1)) = o + k) /\ (i + 1 = n -> o + k = length).
Proof.
  intros N L I H. set (q := Z.quot length n) in *. assert (Q : q = length / n) by (apply Z.quot_div_nonneg; lia). assert (Q0 : 0 <= q) by (rewrite Q; apply Z.div_pos; lia).
  assert (QN : q * n <= length) by (rewrite Q; pose proof (Z.mul_div_le length n N); lia).
  unfold range_request, slice in H. fold q in H. destruct (Z.ltb_spec 0 (if n - 1 =? i then length - q * i else q)) as [X|X]; [|discriminate]. inversion H; subst o k.
  assert (A : 0 <= q * i) by nia. assert (B : q * i + (if n - 1 =? i then length - q * i else q) <= length) by (destruct (Z.eqb_spec (n - 1) i); nia).
  split; [exact A|]. split; [exact X|]. split; [exact B|]. split.
  - unfold server_accepts. destruct (Z.leb_spec 0 (q * i)); [|lia]. destruct (Z.ltb_spec 0 (if n - 1 =? i then length - q * i else q)); [|lia]. cbn [andb negb].
    destruct (Z.leb_spec OFF_RANGE (q * i + (if n - 1 =? i then length - q * i else q))); [lia|]. f_equal. apply Z.leb_le. exact B.
  - split; intros Y; [unfold slice; cbn [fst]; fold q; destruct (Z.eqb_spec (n - 1) i); [lia|nia]|destruct (Z.eqb_spec (n - 1) i); lia].
Qed.
Print Assumptions C54_inside.
Example C54_example : map (range_request 10 3) [0; 1; 2] = [Some (0, 3); Some (3, 3); Some (6, 4)] /\ map (range_request 2 3) [0; 1; 2] = [None; None; Some (0, 2)].
Proof. split; reflexivity. Qed.

(** Which ranges the server sends: those inside the file; others are refused, unless adding the numbers overflows. *)
Theorem C54_refused size o n : o + n < OFF_RANGE ->
  (server_accepts size o n = Ok true <-> 0 <= o /\ 0 < n /\ o + n <= size) /\ (server_accepts size o n = Ok true \/ server_accepts size o n = Ok false).
Proof.
  intros H. unfold server_accepts. destruct (Z.leb_spec 0 o), (Z.ltb_spec 0 n); cbn [andb negb]; try (split; [split; [discriminate|lia]|auto]).
  destruct (Z.leb_spec OFF_RANGE (o + n)); [lia|]. destruct (Z.leb_spec (o + n) size); split; auto; split; auto; try discriminate; lia.
Qed.
Print Assumptions C54_refused.
Example C54_refused_example : map (fun x => server_accepts 10 (fst x) (snd x)) [(0, 10); (3, 7); (3, 8); (-1, 5); (4, 0); (10, 1)] = [Ok true; Ok true; Ok false; Ok false; Ok false; Ok false].
Proof. reflexivity. Qed.

(** ** C55: the receiver writes exactly the announced bytes *)
(** a receiving link gets chunks *)
Fixpoint rx_chunks (file : list byte) (r : rxf) (cs : list (list byte)) : option (res (list byte * rxf)) :=
  match cs with
  | [] => Some (Ok (file, r))
  | c :: cs' => match rx_chunk file r c with Some (Ok (f, r')) => rx_chunks f r' cs' | y => y end
  end.
Definition C55_statement : Prop := forall file o n cs y, 0 <= o -> - OFF_RANGE <= n < OFF_RANGE -> rx_chunks file (rx_open o n) cs = Some y ->
  exists f r, y = Ok (f, r) /\ left r = n - zlen (concat cs) /\ 0 <= left r /\ (cs <> [] -> f = fwrite_at file o (concat cs)).
Lemma zlen_app {A} (a b : list A) : zlen (a ++ b) = zlen a + zlen b.
Proof. unfold zlen. rewrite app_length. lia. Qed.
Lemma zlen_nonneg {A} (a : list A) : 0 <= zlen a.
Proof. unfold zlen. lia. Qed.
Lemma zlen_0 {A} (l : list A) : zlen l = 0 -> l = [].
Proof. destruct l; [reflexivity|]. unfold zlen. cbn [length]. lia. Qed.
(** False: the server takes the length from the peer unchecked; a negative one makes it read into its 65536-byte buffer
    as many bytes as the peer sends. *)
Theorem C55_refuted : exists file o n cs, 0 <= o /\ - OFF_RANGE <= n < OFF_RANGE /\ rx_chunks file (rx_open o n) cs = Some (Bad OutOfBounds).
Proof.
  exists [], 0, (-1), [repeat x00 (Z.to_nat 65537)]. split; [lia|]. split; [unfold OFF_RANGE; lia|]. cbn [rx_chunks]. unfold rx_chunk.
  assert (E : zlen (repeat x00 (Z.to_nat 65537)) = 65537) by (unfold zlen; rewrite repeat_length; lia). rewrite E. reflexivity.
Qed.
Print Assumptions C55_refuted.
Theorem C55_statement_refuted : ~ C55_statement.
Proof. intros H. destruct C55_refuted as (file & o & n & cs & O & N & R). destruct (H file o n cs _ O N R) as (f & r & E & _). discriminate. Qed.
Print Assumptions C55_statement_refuted.

Lemma ztake_length {A} n (l : list A) : 0 <= n <= zlen l -> zlen (ztake n l) = n.
Proof. unfold zlen, ztake. intros H. rewrite firstn_length. lia. Qed.
Lemma fwrite_twice file o a b : 0 <= o -> a <> [] -> fwrite_at (fwrite_at file o a) (o + zlen a) b = fwrite_at file o (a ++ b).
Proof.
  intros O NE. unfold fwrite_at at 2 3. set (f := if zlen file <? o then file ++ repeat x00 (Z.to_nat (o - zlen file)) else file).
  assert (LF : o <= zlen f). { unfold f. destruct (Z.ltb_spec (zlen file) o) as [L|L]; [|exact L]. rewrite zlen_app. unfold zlen at 2. rewrite repeat_length. lia. }
  clearbody f. unfold fwrite_at. set (g := ztake o f ++ a ++ zdrop (o + zlen a) f). assert (LG : zlen g >= o + zlen a). { unfold g. rewrite !zlen_app, ztake_length by lia. pose proof (zlen_nonneg (zdrop (o + zlen a) f)). lia. }
  destruct (Z.ltb_spec (zlen g) (o + zlen a)) as [L|L]; [lia|].
  assert (T : ztake (o + zlen a) g = ztake o f ++ a).
  { unfold g. rewrite app_assoc. unfold ztake at 1. rewrite firstn_app. assert (E : length (ztake o f ++ a) = Z.to_nat (o + zlen a)). { pose proof (ztake_length o f ltac:(lia)) as X. unfold zlen in *. rewrite app_length. lia. }
    rewrite <- E, firstn_all, Nat.sub_diag. cbn [firstn]. apply app_nil_r. }
  assert (D : zdrop (o + zlen a + zlen b) g = zdrop (o + zlen (a ++ b)) f).
  { unfold g. rewrite app_assoc. unfold zdrop. rewrite skipn_app. assert (E : length (ztake o f ++ a) = Z.to_nat (o + zlen a)). { pose proof (ztake_length o f ltac:(lia)) as X. unfold zlen in *. rewrite app_length. lia. }
    rewrite skipn_all2 by (pose proof (zlen_nonneg b); lia). cbn [app]. rewrite E. rewrite zlen_app. pose proof (zlen_nonneg b). pose proof (zlen_nonneg a).
    assert (SK : forall x y (l : list byte), skipn x (skipn y l) = skipn (y + x) l). { intros x y. induction y as [|y IH]; intros l; [reflexivity|]. destruct l as [|z l]; [rewrite !skipn_nil; reflexivity|]. cbn [skipn Nat.add]. apply IH. }
    rewrite SK. f_equal. lia. }
  rewrite T, D, <- !app_assoc. reflexivity.
Qed.
Lemma next_len_bound r : 0 <= left r < SIZE_T -> next_len r = Z.min XFER (left r).
Proof. intros H. unfold next_len. destruct (Z.ltb_spec XFER (left r)); [lia|]. rewrite Z.mod_small by lia. lia. Qed.
(** It holds for every announced length that is not negative: no error, every byte once and in order at its place, never
    more asked for than announced, and finished exactly after the last byte. *)
Theorem C55_exact_partial file o n cs y : 0 <= o -> 0 <= n < OFF_RANGE -> rx_chunks file (rx_open o n) cs = Some y ->
  exists f r, y = Ok (f, r) /\ left r = n - zlen (concat cs) /\ 0 <= left r /\ (cs <> [] -> f = fwrite_at file o (concat cs)) /\
    next_len r <= left r /\ (finished r = true <-> zlen (concat cs) = n) /\ (next_len r = 0 <-> finished r = true).
Proof.
  intros O N. unfold rx_open. assert (G : forall cs f0 r0 a, fpos r0 = o + zlen a -> left r0 = n - zlen a -> 0 <= left r0 -> (a <> [] -> f0 = fwrite_at file o a) -> (a = [] -> f0 = file) ->
    rx_chunks f0 r0 cs = Some y -> exists f r, y = Ok (f, r) /\ left r = n - zlen (a ++ concat cs) /\ 0 <= left r /\ (a ++ concat cs <> [] -> f = fwrite_at file o (a ++ concat cs))).
  { clear cs. induction cs as [|c cs IH]; intros f0 r0 a P L L0 F F0 R; cbn [rx_chunks concat] in *.
    - inversion R; subst. rewrite app_nil_r. exists f0, r0. auto.
    - unfold rx_chunk in R. destruct (Z.eqb_spec (zlen c) 0) as [Z|Z]; [discriminate|]. cbn [orb] in R. rewrite next_len_bound in R by (unfold OFF_RANGE, SIZE_T in *; pose proof (zlen_nonneg a); lia).
      destruct (Z.ltb_spec (Z.min XFER (left r0)) (zlen c)) as [Q|Q]; [discriminate|]. destruct (Z.ltb_spec XFER (zlen c)); [lia|]. destruct (Z.ltb_spec (left r0) (zlen c)); [lia|].
      rewrite app_assoc. eapply IH; [| | | | |exact R]; cbn [fpos left]; rewrite ?zlen_app; try lia.
      + intros _. destruct a as [|x a]; [rewrite (F0 eq_refl); cbn [app] in *; unfold zlen at 1 in P; cbn in P; rewrite P; f_equal; lia|]. rewrite (F ltac:(discriminate)), P. apply fwrite_twice; [exact O|discriminate].
      + intros X. apply app_eq_nil in X as (_ & ->). exfalso. apply Z. reflexivity. }
  intros R. destruct (G cs file (mk_rxf o n) [] ltac:(cbn; lia) ltac:(cbn; lia) ltac:(cbn; lia) ltac:(congruence) ltac:(reflexivity) R) as (f & r & E & L & L0 & F). cbn [app] in *.
  exists f, r. split; [exact E|]. split; [exact L|]. split; [exact L0|].
  assert (NE : cs <> [] -> concat cs <> []). { intros X. destruct cs as [|c cs]; [congruence|]. cbn [concat]. intros Y. apply app_eq_nil in Y as (-> & _). cbn [rx_chunks] in R. cbn in R. subst y. discriminate. }
  split; [auto|]. pose proof (zlen_nonneg (concat cs)). rewrite next_len_bound by (unfold OFF_RANGE, SIZE_T in *; lia). split; [lia|]. unfold finished, XFER. split; [|destruct (Z.eqb_spec (left r) 0); split; try lia; try discriminate; reflexivity]. rewrite Z.eqb_eq. lia.
Qed.
Print Assumptions C55_exact_partial.
Example C55_example : exists y, rx_chunks [x41; x42; x43; x44] (rx_open 1 2) [[x61]; [x62]] = Some y /\ y = Ok ([x41; x61; x62; x44], mk_rxf 3 0) /\ rx_chunks [] (rx_open 0 2) [[x61]; [x62; x63]] = None.
Proof. eexists. split; [vm_compute; reflexivity|]. split; vm_compute; reflexivity. Qed.

(** ** C75: a file fetched over any number of links is the same file *)
Lemma ztake_app {A} n m (l : list A) : 0 <= n -> 0 <= m -> ztake (n + m) l = ztake n l ++ ztake m (zdrop n l).
Proof. intros N M. unfold ztake, zdrop. replace (Z.to_nat (n + m)) with (Z.to_nat n + Z.to_nat m)%nat by lia. generalize (Z.to_nat n) (Z.to_nat m). intros x y. revert l. induction x as [|x IH]; intros l; [reflexivity|]. destruct l as [|z l]; cbn; [rewrite firstn_nil; reflexivity|]. rewrite IH. reflexivity. Qed.
Lemma zdrop_zdrop {A} n m (l : list A) : 0 <= n -> 0 <= m -> zdrop m (zdrop n l) = zdrop (n + m) l.
Proof. intros N M. unfold zdrop. replace (Z.to_nat (n + m)) with (Z.to_nat n + Z.to_nat m)%nat by lia. generalize (Z.to_nat n) (Z.to_nat m). intros x y. revert l. induction x as [|x IH]; intros l; [reflexivity|]. destruct l as [|z l]; cbn; [rewrite skipn_nil; reflexivity|]. apply IH. Qed.
Lemma zlen_zdrop {A} n (l : list A) : 0 <= n <= zlen l -> zlen (zdrop n l) = zlen l - n.
Proof. unfold zlen, zdrop. intros H. rewrite skipn_length. lia. Qed.
(** the server sends exactly the range, in blocks *)
Theorem C75_sender_exact file : forall fuel pos total, 0 <= pos -> 0 <= total -> pos + total <= zlen file -> (Z.to_nat total < fuel)%nat ->
  exists bs, fb_send fuel file pos total = (bs, true) /\ concat bs = ztake total (zdrop pos file) /\ Forall (fun b => 0 < zlen b <= XFER) bs.
Proof.
  induction fuel as [|f IH]; intros pos total P T PT F; [lia|]. cbn [fb_send]. unfold fb_read. destruct (Z.leb_spec total 0) as [Z|Z].
  - exists []. assert (total = 0) by lia. subst. split; [reflexivity|]. split; [reflexivity|constructor].
  - set (n := if XFER <? total then XFER else total). assert (NB : 0 < n <= total /\ n <= XFER) by (unfold n; destruct (Z.ltb_spec XFER total); unfold XFER in *; lia). clearbody n.
    assert (L : zlen (ztake n (zdrop pos file)) = n) by (apply ztake_length; rewrite zlen_zdrop by lia; lia). rewrite L, Z.eqb_refl.
    destruct (IH (pos + n) (total - n) ltac:(lia) ltac:(lia) ltac:(lia) ltac:(lia)) as (bs & E & C & B). destruct (ztake n (zdrop pos file)) as [|x t] eqn:TK; [change (zlen (@nil byte)) with 0 in L; lia|]. rewrite E, <- TK. rewrite <- TK in L.
    exists (ztake n (zdrop pos file) :: bs). split; [reflexivity|]. split; [cbn [concat]; rewrite C, <- (zdrop_zdrop pos n) by lia; rewrite <- ztake_app by lia; f_equal; lia|constructor; [lia|exact B]].
Qed.
Print Assumptions C75_sender_exact.
(** and it takes a transfer for a good one only if it was exactly that: a file that turns out shorter is noticed *)
Theorem C75_sender_truthful file : forall fuel pos total bs, 0 <= pos -> 0 <= total -> fb_send fuel file pos total = (bs, true) ->
  concat bs = ztake total (zdrop pos file) /\ zlen (concat bs) = total.
Proof.
  induction fuel as [|f IH]; intros pos total bs P T E; cbn [fb_send] in E; [discriminate E|]. unfold fb_read in E. destruct (Z.leb_spec total 0) as [Z|Z].
  - injection E as <-. assert (total = 0) by lia. subst. split; reflexivity.
  - set (n := if XFER <? total then XFER else total) in E. assert (NB : 0 < n <= total) by (unfold n; destruct (Z.ltb_spec XFER total); unfold XFER in *; lia). clearbody n.
    destruct (Z.eqb_spec (zlen (ztake n (zdrop pos file))) n) as [L|L]; [|discriminate E].
    destruct (ztake n (zdrop pos file)) as [|x t] eqn:TK; [change (zlen (@nil byte)) with 0 in L; lia|]. rewrite <- TK in *.
    destruct (fb_send f file (pos + n) (total - n)) as [l ok] eqn:F. injection E as <- ->.
    destruct (IH (pos + n) (total - n) l ltac:(lia) ltac:(lia) F) as (C & D). split.
    + cbn [concat]. rewrite C, <- (zdrop_zdrop pos n) by lia. rewrite <- ztake_app by lia. f_equal. lia.
    + cbn [concat]. rewrite zlen_app, D, L. lia.
Qed.
Print Assumptions C75_sender_truthful.
Example C75_sender_truthful_example : fb_send 5 [x41; x42; x43; x44] 1 2 = ([[x42; x43]], true) /\ fb_send 5 [x41; x42; x43; x44] 1 4 = ([], false).
Proof. split; vm_compute; reflexivity. Qed.

Definition znth (l : list byte) (p : Z) : option byte := nth_error l (Z.to_nat p).
Lemma znth_app l m p : 0 <= p -> znth (l ++ m) p = if p <? zlen l then znth l p else znth m (p - zlen l).
Proof. intros P. unfold znth, zlen. destruct (Z.ltb_spec p (Z.of_nat (length l))); [apply nth_error_app1; lia|]. rewrite nth_error_app2 by lia. f_equal. lia. Qed.
Lemma znth_ztake l n p : 0 <= p < n -> znth (ztake n l) p = znth l p.
Proof. intros P. unfold znth, ztake. assert (H : (Z.to_nat p < Z.to_nat n)%nat) by lia. revert H. generalize (Z.to_nat p) (Z.to_nat n). clear. intros i k. revert i l. induction k as [|k IH]; intros i l H; [lia|]. destruct l as [|x l]; [destruct i; reflexivity|]. destruct i as [|i]; [reflexivity|]. cbn. apply IH. lia. Qed.
Lemma znth_zdrop l n p : 0 <= p -> 0 <= n -> znth (zdrop n l) p = znth l (n + p).
Proof. intros P N. unfold znth, zdrop. replace (Z.to_nat (n + p)) with (Z.to_nat n + Z.to_nat p)%nat by lia. generalize (Z.to_nat p) (Z.to_nat n). clear. intros i k. revert l. induction k as [|k IH]; intros l; [reflexivity|]. destruct l as [|x l]; [cbn; destruct i; reflexivity|]. cbn. apply IH. Qed.
Lemma fwrite_len f o l : 0 <= o -> zlen (fwrite_at f o l) = Z.max (zlen f) (o + zlen l) \/ zlen l = 0.
Proof.
  intros O. pose proof (zlen_nonneg l). destruct (Z.eq_dec (zlen l) 0) as [|NZ]; [auto|]. left. unfold fwrite_at. set (g := if zlen f <? o then f ++ repeat x00 (Z.to_nat (o - zlen f)) else f).
  assert (LG : zlen g = Z.max (zlen f) o). { unfold g. destruct (Z.ltb_spec (zlen f) o); [|lia]. rewrite zlen_app. unfold zlen at 2. rewrite repeat_length. lia. }
  rewrite !zlen_app, ztake_length by lia. unfold zdrop, zlen in *. rewrite skipn_length. lia.
Qed.
Lemma fwrite_nth f o l p : 0 <= o -> 0 <= p -> znth (fwrite_at f o l) p = if (o <=? p) && (p <? o + zlen l) then znth l (p - o) else if p <? zlen f then znth f p else znth (fwrite_at f o l) p.
Proof.
  intros O P. pose proof (zlen_nonneg l). destruct (Z.leb_spec o p) as [A|A]; destruct (Z.ltb_spec p (o + zlen l)) as [B|B]; cbn [andb].
  - unfold fwrite_at. set (g := if zlen f <? o then f ++ repeat x00 (Z.to_nat (o - zlen f)) else f). assert (LG : zlen g >= o). { unfold g. destruct (Z.ltb_spec (zlen f) o); [|lia]. rewrite zlen_app. unfold zlen at 2. rewrite repeat_length. lia. }
    rewrite znth_app by lia. rewrite ztake_length by lia. destruct (Z.ltb_spec p o); [lia|]. rewrite znth_app by lia. destruct (Z.ltb_spec (p - o) (zlen l)); [reflexivity|lia].
  - destruct (Z.ltb_spec p (zlen f)) as [C|C]; [|reflexivity]. unfold fwrite_at. destruct (Z.ltb_spec (zlen f) o); [lia|]. rewrite znth_app by lia. rewrite ztake_length by lia. destruct (Z.ltb_spec p o); [lia|]. rewrite znth_app by lia. destruct (Z.ltb_spec (p - o) (zlen l)); [lia|].
    rewrite znth_zdrop by lia. f_equal. lia.
  - destruct (Z.ltb_spec p (zlen f)) as [C|C]; [|reflexivity]. unfold fwrite_at. set (g := if zlen f <? o then f ++ repeat x00 (Z.to_nat (o - zlen f)) else f). assert (LG : zlen g >= o). { unfold g. destruct (Z.ltb_spec (zlen f) o); [|lia]. rewrite zlen_app. unfold zlen at 2. rewrite repeat_length. lia. }
    rewrite znth_app by lia. rewrite ztake_length by lia. destruct (Z.ltb_spec p o); [|lia]. rewrite znth_ztake by lia. unfold g. destruct (Z.ltb_spec (zlen f) o); [|reflexivity]. rewrite znth_app by lia. destruct (Z.ltb_spec p (zlen f)); [reflexivity|lia].
  - lia.
Qed.

(** what is known of a link that started at [o] and ends at [e] *)
Definition link_ok (file d : list byte) (oe : Z * Z) (x : rxf * list byte) : Prop :=
  let '(o, e) := oe in let '(r, s) := x in
  0 <= o /\ o <= fpos r /\ 0 <= left r /\ fpos r + left r = e /\ e <= zlen file /\ s = ztake (left r) (zdrop (fpos r) file) /\
  forall p, o <= p < fpos r -> p < zlen d /\ znth d p = znth file p.
Lemma Forall2_upd {A B} (P : A -> B -> Prop) k y : forall l m x, Forall2 P l m -> nth_error m k = Some x -> (forall a, nth_error l k = Some a -> P a x -> P a y) -> Forall2 P l (upd k y m).
Proof.
  intros l m x F. revert k. induction F as [|a b l m H F IH]; intros k N U; [destruct k; constructor|]. destruct k as [|k]; cbn [nth_error upd] in *.
  - inversion N; subst. constructor; [apply U; [reflexivity|exact H]|exact F].
  - constructor; [exact H|]. apply IH; [exact N|exact U].
Qed.
Lemma Forall2_weaken {A B} (P Q : A -> B -> Prop) l m : (forall a b, P a b -> Q a b) -> Forall2 P l m -> Forall2 Q l m.
Proof. intros I F. induction F; constructor; auto. Qed.
Lemma nth_error_same {A} : forall l m : list A, (forall i, nth_error l i = nth_error m i) -> l = m.
Proof.
  induction l as [|x l IH]; intros [|y m] H; [reflexivity|discriminate (H 0%nat)|discriminate (H 0%nat)|]. pose proof (H 0%nat) as H0. inversion H0; subst. f_equal. apply IH. intros i. exact (H (S i)).
Qed.
Lemma link_mono file d d' oe x : (forall p, 0 <= p < zlen d -> znth d p = znth file p -> p < zlen d' /\ znth d' p = znth file p) -> link_ok file d oe x -> link_ok file d' oe x.
Proof.
  destruct oe as [o e], x as [r s]. intros M (A & B & C & D & E & F & G). split; [exact A|]. split; [exact B|]. split; [exact C|]. split; [exact D|]. split; [exact E|]. split; [exact F|]. intros p P. destruct (G p P) as (G1 & G2). apply M; [lia|exact G2].
Qed.
Lemma xstep_ok file ends x k n y : zlen file < OFF_RANGE -> Forall2 (link_ok file (dest x)) ends (links x) -> zlen (dest x) <= zlen file -> xstep x k n = Some y ->
  exists x1, y = Ok x1 /\ Forall2 (link_ok file (dest x1)) ends (links x1) /\ zlen (dest x1) <= zlen file.
Proof.
  intros OF F L H. unfold xstep in H. destruct (nth_error (links x) k) as [[r s]|] eqn:N; [|discriminate].
  assert (NE : exists oe, nth_error ends k = Some oe /\ link_ok file (dest x) oe (r, s)).
  { clear H. revert k N. induction F as [|a b l m Q F IH]; intros k N; [destruct k; discriminate|]. destruct k as [|k]; cbn [nth_error] in *; [inversion N; subst; eauto|]. apply IH. exact N. }
  destruct NE as ([o e] & NK & (A & B & C & D & E & S & G)). unfold rx_chunk in H. set (c := ztake n s) in *. destruct (Z.eqb_spec (zlen c) 0) as [Z0|Z0]; [discriminate|]. cbn [orb] in H.
  rewrite next_len_bound in H by (unfold OFF_RANGE, SIZE_T in *; pose proof (zlen_nonneg file); lia). destruct (Z.ltb_spec (Z.min XFER (left r)) (zlen c)) as [Q|Q]; [discriminate|].
  destruct (Z.ltb_spec XFER (zlen c)); [lia|]. destruct (Z.ltb_spec (left r) (zlen c)); [lia|]. inversion H; subst y. eexists. split; [reflexivity|]. cbn [dest links].
  pose proof (zlen_nonneg c) as CN. assert (SL : zlen s = left r) by (rewrite S; apply ztake_length; rewrite zlen_zdrop by lia; lia).
  assert (CL : 0 < n /\ zlen c = Z.min n (zlen s)). { unfold c, ztake, zlen in *. rewrite firstn_length in *. lia. } destruct CL as (N0 & CL).
  assert (CS : c = ztake (zlen c) (zdrop (fpos r) file)).
  { unfold c at 1. rewrite S. unfold ztake. rewrite firstn_firstn. f_equal. rewrite CL, SL. lia. }
  assert (SD : zdrop n s = ztake (left r - zlen c) (zdrop (fpos r + zlen c) file)).
  { destruct (Z.le_gt_cases n (zlen s)) as [X|X].
    - assert (zlen c = n) by lia. rewrite S. replace (left r) with (n + (left r - n)) at 1 by lia. rewrite ztake_app by lia. rewrite zdrop_zdrop by lia. unfold zdrop at 1. rewrite skipn_app. assert (LE : length (ztake n (zdrop (fpos r) file)) = Z.to_nat n). { pose proof (ztake_length n (zdrop (fpos r) file)) as Y. rewrite zlen_zdrop in Y by lia. specialize (Y ltac:(lia)). unfold zlen in Y. lia. }
      rewrite <- LE at 1. rewrite skipn_all. rewrite LE, Nat.sub_diag. cbn [skipn app]. f_equal; [lia|f_equal; lia].
    - assert (zlen c = zlen s) by lia. replace (left r - zlen c) with 0 by lia. unfold zdrop, ztake. rewrite skipn_all2 by (unfold zlen in *; lia). reflexivity. }
  destruct (fwrite_len (dest x) (fpos r) c ltac:(lia)) as [LW|LW]; [|lia].
  assert (MONO : forall p, 0 <= p < zlen (dest x) -> znth (dest x) p = znth file p -> p < zlen (fwrite_at (dest x) (fpos r) c) /\ znth (fwrite_at (dest x) (fpos r) c) p = znth file p).
  { intros p P EQ. split; [lia|]. rewrite fwrite_nth by lia. destruct (Z.leb_spec (fpos r) p); destruct (Z.ltb_spec p (fpos r + zlen c)); cbn [andb]; try (destruct (Z.ltb_spec p (zlen (dest x))); [exact EQ|lia]).
    rewrite CS, znth_ztake, znth_zdrop by lia. f_equal. lia. }
  split; [|lia]. eapply Forall2_upd; [|exact N|].
  - eapply Forall2_weaken; [|exact F]. intros a b. apply link_mono. exact MONO.
  - intros a NA _. rewrite NK in NA. inversion NA; subst a. cbn [link_ok fpos left]. split; [exact A|]. split; [lia|]. split; [lia|]. split; [lia|]. split; [exact E|]. split; [exact SD|].
    intros p P. destruct (Z.lt_ge_cases p (fpos r)) as [X|X]; [destruct (G p ltac:(lia)) as (G1 & G2); apply MONO; [lia|exact G2]|]. split; [lia|]. rewrite fwrite_nth by lia. destruct (Z.leb_spec (fpos r) p); [|lia]. destruct (Z.ltb_spec p (fpos r + zlen c)); [|lia]. cbn [andb].
    rewrite CS, znth_ztake, znth_zdrop by lia. f_equal. lia.
Qed.
Lemma xsteps_ok file ends l : zlen file < OFF_RANGE -> forall x y, Forall2 (link_ok file (dest x)) ends (links x) -> zlen (dest x) <= zlen file -> xsteps x l = Some y ->
  exists x1, y = Ok x1 /\ Forall2 (link_ok file (dest x1)) ends (links x1) /\ zlen (dest x1) <= zlen file.
Proof.
  intros OF. induction l as [|[k n] l IH]; intros x y F L H; cbn [xsteps] in H; [inversion H; subst; eauto|]. destruct (xstep x k n) as [y1|] eqn:E; [|discriminate].
  destruct (xstep_ok _ _ _ _ _ _ OF F L E) as (x1 & -> & F1 & L1). eapply IH; [exact F1|exact L1|exact H].
Qed.
(** the ranges of all links *)
Definition ranges (file : list byte) (link_num : nat) : list (Z * Z) :=
  flat_map (fun i => match range_request (zlen file) (Z.of_nat link_num) (Z.of_nat i) with Some (o, n) => [(o, o + n)] | None => [] end) (seq 0 link_num).
Lemma Forall2_flat_map {A B C} (P : B -> C -> Prop) (f : A -> list B) (g : A -> list C) l : (forall a, In a l -> Forall2 P (f a) (g a)) -> Forall2 P (flat_map f l) (flat_map g l).
Proof. induction l as [|a l IH]; intros H; cbn [flat_map]; [constructor|]. apply Forall2_app; [apply H; left; reflexivity|apply IH; intros b X; apply H; right; exact X]. Qed.
Lemma get_file_ok fuel file link_num : zlen file < OFF_RANGE -> (length file < fuel)%nat ->
  Forall2 (link_ok file []) (ranges file link_num) (links (get_file fuel file link_num)).
Proof.
  intros OF FU. unfold ranges, get_file. cbn [links]. apply Forall2_flat_map. intros i I. apply in_seq in I. unfold get_link.
  destruct (range_request (zlen file) (Z.of_nat link_num) (Z.of_nat i)) as [[o n]|] eqn:R; [|constructor].
  destruct (C54_inside (zlen file) (Z.of_nat link_num) (Z.of_nat i) o n ltac:(lia) ltac:(pose proof (zlen_nonneg file); lia) ltac:(lia) R) as (O & N & ON & SA & _). rewrite SA.
  destruct (C75_sender_exact file fuel o n O ltac:(lia) ON ltac:(unfold zlen in *; lia)) as (bs & E & C & _). rewrite E. cbn [fst]. rewrite C. constructor; [|constructor]. unfold rx_open. cbn [link_ok fpos left].
  split; [exact O|]. split; [lia|]. split; [lia|]. split; [reflexivity|]. split; [exact ON|]. split; [reflexivity|]. intros p P. lia.
Qed.
(** For every file, every number of links, and however the links' bytes are cut and interleaved: nothing goes wrong, every
    unfinished link still gets bytes, and once all links are finished the file is the same. *)
Theorem C75_same_file file link_num fuel l y : (0 < link_num)%nat -> zlen file < OFF_RANGE -> (length file < fuel)%nat ->
  xsteps (get_file fuel file link_num) l = Some y ->
  exists x, y = Ok x /\ (forallb (fun '(r, _) => finished r) (links x) = true -> dest x = file) /\
    (forall k r s, nth_error (links x) k = Some (r, s) -> finished r = false -> exists x1, xstep x k 1 = Some (Ok x1)).
Proof.
  intros LN OF FU H. destruct (xsteps_ok file (ranges file link_num) l OF (get_file fuel file link_num) y (get_file_ok fuel file link_num OF FU) ltac:(cbn; apply zlen_nonneg) H) as (x & -> & F & L). exists x. split; [reflexivity|]. split.
  - intros FIN. assert (COV : forall p, 0 <= p < zlen file -> p < zlen (dest x) /\ znth (dest x) p = znth file p).
    { intros p P. destruct (C54_covered_once (zlen file) (Z.of_nat link_num) p ltac:(lia) P) as (i & (I & o & n & R & B) & _).
      assert (IN : In (o, o + n) (ranges file link_num)). { unfold ranges. apply in_flat_map. exists (Z.to_nat i). split; [apply in_seq; lia|]. rewrite Z2Nat.id by lia. rewrite R. left. reflexivity. }
      clear R I. revert IN. induction F as [|a b ends m Q F IH]; intros IN; [contradiction|]. cbn [forallb] in FIN. apply andb_prop in FIN as (F1 & F2). destruct IN as [->|IN]; [|apply IH; assumption].
      destruct b as [r s]. destruct Q as (_ & _ & _ & D & _ & _ & G). unfold finished in F1. apply Z.eqb_eq in F1. apply G. lia. }
    assert (LE : zlen (dest x) = zlen file). { pose proof (zlen_nonneg file). destruct (Z.eq_dec (zlen file) 0) as [Z|Z]; [pose proof (zlen_nonneg (dest x)); lia|]. destruct (COV (zlen file - 1) ltac:(lia)). lia. }
    apply nth_error_same. intros i. destruct (Z.lt_ge_cases (Z.of_nat i) (zlen file)) as [X|X].
    + destruct (COV (Z.of_nat i) ltac:(lia)) as (_ & E). unfold znth in E. rewrite Nat2Z.id in E. exact E.
    + unfold zlen in *. rewrite (proj2 (nth_error_None (dest x) i)) by lia. rewrite (proj2 (nth_error_None file i)) by lia. reflexivity.
  - intros k r s NK NF. assert (Q : exists oe, link_ok file (dest x) oe (r, s)).
    { clear - F NK. revert k NK. induction F as [|a b l m Q F IH]; intros k N; [destruct k; discriminate|]. destruct k as [|k]; cbn [nth_error] in *; [inversion N; subst; eauto|]. eapply IH. exact N. }
    destruct Q as ([o e] & A & B & C & D & E & S & _). unfold finished in NF. apply Z.eqb_neq in NF. assert (SL : zlen s = left r) by (rewrite S; apply ztake_length; rewrite zlen_zdrop by lia; lia).
    unfold xstep. rewrite NK. assert (T1 : zlen (ztake 1 s) = 1) by (apply ztake_length; lia). unfold rx_chunk. rewrite T1. change (1 =? 0) with false. cbn [orb]. rewrite next_len_bound by (unfold OFF_RANGE, SIZE_T in *; lia).
    destruct (Z.ltb_spec (Z.min XFER (left r)) 1); [unfold XFER in *; lia|]. change (XFER <? 1) with false. destruct (Z.ltb_spec (left r) 1); [lia|]. eauto.
Qed.
Print Assumptions C75_same_file.
Example C75_example : exists x, xsteps (get_file 10 [x61; x62; x63; x64; x65] 2) [(1%nat, 2); (0%nat, 1); (1%nat, 1); (0%nat, 1)] = Some (Ok x) /\ forallb (fun '(r, _) => finished r) (links x) = true /\ dest x = [x61; x62; x63; x64; x65].
Proof. eexists. split; [vm_compute; reflexivity|]. split; reflexivity. Qed.
