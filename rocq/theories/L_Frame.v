(** A greedy reader of length-prefixed byte strings (proof device) and its relation to [wire]. *)
From Coq Require Import Arith List NArith Bool Lia ZifyBool ZifyNat ZifyN.
From Verif Require Import M_Bytes M_Config S_Frame L_Bytes.
Import ListNotations.
Open Scope N_scope.

Lemma head_len_cases c : head_len c = 2 \/ head_len c = 4.
Proof. unfold head_len. destruct (huge c); auto. Qed.
Lemma head_range_cases c : head_range c = 65536 \/ head_range c = 4294967296.
Proof. unfold head_range, head_len. destruct (huge c); [right|left]; reflexivity. Qed.
Lemma cfg_ok_facts c : cfg_ok c = true ->
  head_len c <= bufsz c /\ bufsz c < npos c /\ head_range c - 1 <= npos c /\ (huge c = false -> head_range c <= npos c).
Proof.
  unfold cfg_ok, head_range, head_len. intros H.
  apply andb_prop in H as [H H3]. apply andb_prop in H as [H1 H2].
  apply orb_prop in H3. change (2^32 - 1) with 4294967295 in H3. change (2^64-1) with 18446744073709551615 in H3.
  destruct (huge c); [change (256^4) with 4294967296|change (256^2) with 65536]; lia.
Qed.

(** the value of the length field at the start of [p] *)
Definition hd_val (c : cfg) (p : list byte) : N := be_decode (takeN (head_len c) p).
Definition bad_len (c : cfg) (n : N) : bool := (bufsz c <? n) || (n <? head_len c).

Fixpoint lpf (fuel : nat) (c : cfg) (p : list byte) : list (list byte) * list byte * bool :=
  match fuel with
  | O => ([], p, false)
  | S f =>
    if lenN p <? head_len c then ([], p, false)
    else if bad_len c (hd_val c p) then ([], p, true)
    else if lenN p <? hd_val c p then ([], p, false)
    else let '(ms, r, e) := lpf f c (dropN (hd_val c p) p) in (takeN (hd_val c p) p :: ms, r, e)
  end.
Definition lp (c : cfg) (p : list byte) := lpf (S (length p)) c p.

Lemma lpf_fuel c f : forall p g, (length p < f)%nat -> (length p < g)%nat -> lpf f c p = lpf g c p.
Proof.
  induction f as [|f IH]; intros p g Hf Hg; [lia|].
  destruct g as [|g]; [lia|]. cbn [lpf].
  destruct (N.ltb_spec (lenN p) (head_len c)); [reflexivity|].
  destruct (bad_len c (hd_val c p)) eqn:Hb; [reflexivity|].
  destruct (N.ltb_spec (lenN p) (hd_val c p)); [reflexivity|].
  assert (L : (length (dropN (hd_val c p) p) < length p)%nat).
  { pose proof (lenN_dropN (hd_val c p) p) as E. unfold lenN in *. unfold bad_len in Hb.
    destruct (head_len_cases c); lia. }
  rewrite (IH (dropN (hd_val c p) p) g) by lia. reflexivity.
Qed.

Lemma lp_eq c p : lp c p =
    if lenN p <? head_len c then ([], p, false)
    else if bad_len c (hd_val c p) then ([], p, true)
    else if lenN p <? hd_val c p then ([], p, false)
    else let '(ms, r, e) := lp c (dropN (hd_val c p) p) in (takeN (hd_val c p) p :: ms, r, e).
Proof.
  unfold lp. cbn [lpf].
  destruct (N.ltb_spec (lenN p) (head_len c)); [reflexivity|].
  destruct (bad_len c (hd_val c p)) eqn:Hb; [reflexivity|].
  destruct (N.ltb_spec (lenN p) (hd_val c p)); [reflexivity|].
  assert (L : (length (dropN (hd_val c p) p) < length p)%nat).
  { pose proof (lenN_dropN (hd_val c p) p) as E. unfold lenN in *. unfold bad_len in Hb.
    destruct (head_len_cases c); lia. }
  rewrite (lpf_fuel c (length p) _ (S (length (dropN (hd_val c p) p)))) by lia. reflexivity.
Qed.

Lemma hd_val_app c p q : head_len c <= lenN p -> hd_val c (p ++ q) = hd_val c p.
Proof. intros. unfold hd_val. rewrite takeN_app_le by lia. reflexivity. Qed.

(** strong induction on the length of the data *)
Lemma list_len_ind (P : list byte -> Prop) :
  (forall p, (forall q, lenN q < lenN p -> P q) -> P p) -> forall p, P p.
Proof.
  intros H p. remember (length p) as n eqn:E. revert p E.
  induction n as [n IH] using (well_founded_induction lt_wf).
  intros p ->. apply H. intros q Hq. apply (IH (length q)); unfold lenN in *; [lia|reflexivity].
Qed.

(** the unparsed rest contains neither a complete frame nor a bad header *)
Lemma lp_rest c : forall p ms r, lp c p = (ms, r, false) -> lp c r = ([], r, false).
Proof.
  induction p as [p IH] using list_len_ind. intros ms r. rewrite lp_eq.
  destruct (N.ltb_spec (lenN p) (head_len c)) as [Hl|Hl].
  { intros E; inversion E; subst. rewrite lp_eq. destruct (N.ltb_spec (lenN r) (head_len c)); [reflexivity|lia]. }
  destruct (bad_len c (hd_val c p)) eqn:Hb; [discriminate|].
  destruct (N.ltb_spec (lenN p) (hd_val c p)) as [Hn|Hn].
  { intros E; inversion E; subst. rewrite lp_eq.
    destruct (N.ltb_spec (lenN r) (head_len c)); [lia|]. rewrite Hb.
    destruct (N.ltb_spec (lenN r) (hd_val c r)); [reflexivity|lia]. }
  destruct (lp c (dropN (hd_val c p) p)) as [[ms' r'] e'] eqn:E'. intros E; inversion E; subst.
  eapply IH; [|exact E']. rewrite lenN_dropN. unfold bad_len in Hb. destruct (head_len_cases c); lia.
Qed.

Lemma lp_none c r : lp c r = ([], r, false) -> lenN r < head_len c \/
  (head_len c <= lenN r /\ bad_len c (hd_val c r) = false /\ lenN r < hd_val c r).
Proof.
  rewrite lp_eq. destruct (N.ltb_spec (lenN r) (head_len c)); [auto|].
  destruct (bad_len c (hd_val c r)) eqn:Hb; [discriminate|].
  destruct (N.ltb_spec (lenN r) (hd_val c r)); [intros _; right; repeat split; assumption|].
  destruct (lp c (dropN (hd_val c r) r)) as [[? ?] ?]. discriminate.
Qed.

(** Reading [a ++ b] = reading [a], then reading the rest together with [b]. *)
Lemma lp_app c : forall a b ms r e, lp c a = (ms, r, e) ->
  lp c (a ++ b) = if e then (ms, r ++ b, true)
                  else let '(ms', r', e') := lp c (r ++ b) in (ms ++ ms', r', e').
Proof.
  induction a as [a IH] using list_len_ind. intros b ms r e E.
  destruct (N.ltb_spec (lenN a) (head_len c)) as [Hl|Hl].
  { rewrite lp_eq in E. destruct (N.ltb_spec (lenN a) (head_len c)); [|lia]. inversion E; subst.
    destruct (lp c (r ++ b)) as [[? ?] ?]. reflexivity. }
  rewrite lp_eq in E. destruct (N.ltb_spec (lenN a) (head_len c)); [lia|].
  rewrite (lp_eq c (a ++ b)), lenN_app.
  destruct (N.ltb_spec (lenN a + lenN b) (head_len c)); [lia|].
  rewrite hd_val_app by lia.
  destruct (bad_len c (hd_val c a)) eqn:Hb.
  { inversion E; subst. reflexivity. }
  destruct (N.ltb_spec (lenN a) (hd_val c a)) as [Hn|Hn].
  { inversion E; subst. rewrite (lp_eq c (r ++ b)), lenN_app, hd_val_app by lia.
    destruct (N.ltb_spec (lenN r + lenN b) (head_len c)); [lia|]. rewrite Hb.
    destruct (N.ltb_spec (lenN r + lenN b) (hd_val c r)); [reflexivity|].
    destruct (lp c (dropN (hd_val c r) (r ++ b))) as [[? ?] ?]. reflexivity. }
  destruct (N.ltb_spec (lenN a + lenN b) (hd_val c a)); [lia|].
  rewrite dropN_app_le, takeN_app_le by lia.
  destruct (lp c (dropN (hd_val c a) a)) as [[ms1 r1] e1] eqn:E1. inversion E; subst.
  assert (L : lenN (dropN (hd_val c a) a) < lenN a).
  { rewrite lenN_dropN. unfold bad_len in Hb. destruct (head_len_cases c); lia. }
  rewrite (IH _ L b _ _ _ E1). destruct e; [reflexivity|].
  destruct (lp c (r ++ b)) as [[? ?] ?]. reflexivity.
Qed.

(** what the greedy reader finds is what was there *)
Lemma lp_concat c : forall p ms r e, lp c p = (ms, r, e) -> concat ms ++ r = p.
Proof.
  induction p as [p IH] using list_len_ind. intros ms r e. rewrite lp_eq.
  destruct (N.ltb_spec (lenN p) (head_len c)) as [Hl|Hl]; [intros E; inversion E; reflexivity|].
  destruct (bad_len c (hd_val c p)) eqn:Hb; [intros E; inversion E; reflexivity|].
  destruct (N.ltb_spec (lenN p) (hd_val c p)) as [Hn|Hn]; [intros E; inversion E; reflexivity|].
  destruct (lp c (dropN (hd_val c p) p)) as [[ms' r'] e'] eqn:E'. intros E; inversion E; subst.
  cbn [concat]. rewrite <- app_assoc.
  assert (L : lenN (dropN (hd_val c p) p) < lenN p).
  { rewrite lenN_dropN. unfold bad_len in Hb. destruct (head_len_cases c); lia. }
  rewrite (IH _ L _ _ _ E'). apply take_drop.
Qed.

(** frames *)
Lemma lenN_frame c b : lenN (frame c b) = head_len c + lenN b.
Proof. unfold frame. rewrite lenN_app. unfold lenN at 1. rewrite be_encode_len. lia. Qed.
Lemma frame_hd c b q : fits c b = true -> hd_val c (frame c b ++ q) = head_len c + lenN b.
Proof.
  intros F. unfold hd_val, frame. rewrite <- app_assoc.
  rewrite app_take_eq by (unfold lenN; rewrite be_encode_len; lia).
  rewrite be_decode_encode. unfold fits, head_range in F.
  replace (N.of_nat (N.to_nat (head_len c))) with (head_len c) by lia.
  apply N.mod_small. lia.
Qed.
Lemma fits_not_bad c b : fits c b = true -> bad_len c (head_len c + lenN b) = false.
Proof. unfold fits, bad_len. lia. Qed.

(** On any prefix of a stream of valid frames the reader finds exactly the complete frames. *)
Lemma lp_wire_prefix c : forall bodies p rest, forallb (fits c) bodies = true -> p ++ rest = wire c bodies ->
  exists r, lp c p = (map (frame c) (complete c bodies (lenN p)), r, false).
Proof.
  induction bodies as [|b bs IH]; intros p rest F E.
  { cbn in E. apply app_eq_nil in E as [-> _]. exists []. rewrite lp_eq.
    destruct (head_len_cases c) as [-> | ->]; reflexivity. }
  cbn [forallb] in F. apply andb_prop in F as [Fb Fs].
  change (wire c (b :: bs)) with (frame c b ++ wire c bs) in E.
  cbn [complete].
  destruct (N.leb_spec (lenN (frame c b)) (lenN p)) as [Hc|Hc].
  - assert (Hp : p = frame c b ++ dropN (lenN (frame c b)) p).
    { rewrite <- (take_drop (lenN (frame c b)) p) at 1. f_equal.
      apply (f_equal (takeN (lenN (frame c b)))) in E.
      rewrite takeN_app_le in E by lia. rewrite E. apply app_take_eq. reflexivity. }
    assert (E2 : dropN (lenN (frame c b)) p ++ rest = wire c bs).
    { apply (f_equal (dropN (lenN (frame c b)))) in E.
      rewrite dropN_app_le in E by lia. rewrite E. apply app_drop_eq. reflexivity. }
    destruct (IH _ _ Fs E2) as [r Hr]. rewrite lenN_dropN in Hr.
    exists r. rewrite Hp at 1. rewrite lp_eq.
    rewrite lenN_app, lenN_frame.
    destruct (N.ltb_spec (head_len c + lenN b + lenN (dropN (head_len c + lenN b) p)) (head_len c)); [lia|].
    rewrite <- lenN_frame. rewrite frame_hd by assumption. rewrite fits_not_bad by assumption.
    rewrite <- lenN_frame.
    destruct (N.ltb_spec (lenN (frame c b) + lenN (dropN (lenN (frame c b)) p)) (lenN (frame c b))); [lia|].
    rewrite app_drop_eq, app_take_eq by reflexivity. rewrite Hr. reflexivity.
  - exists p. rewrite lp_eq. rewrite lenN_frame in Hc.
    destruct (N.ltb_spec (lenN p) (head_len c)) as [Hl|Hl]; [reflexivity|].
    assert (Hh : hd_val c p = head_len c + lenN b).
    { rewrite <- (frame_hd c b (wire c bs)) by assumption. rewrite <- E. rewrite hd_val_app by lia. reflexivity. }
    rewrite Hh, fits_not_bad by assumption.
    destruct (N.ltb_spec (lenN p) (head_len c + lenN b)); [reflexivity|lia].
Qed.

(** Valid frames followed by a bad header: all frames are found, then an error. *)
Lemma lp_wire_bad c : forall bodies junk, forallb (fits c) bodies = true ->
  head_len c <= lenN junk -> bad_len c (hd_val c junk) = true ->
  lp c (wire c bodies ++ junk) = (map (frame c) bodies, junk, true).
Proof.
  intros bodies junk F Hl Hb. destruct (lp_wire_prefix c bodies (wire c bodies) [] F (app_nil_r _)) as [r Hr].
  assert (Hall : forall bs, complete c bs (lenN (wire c bs)) = bs).
  { clear. induction bs as [|b bs IH]; [reflexivity|]. cbn [complete].
    change (wire c (b :: bs)) with (frame c b ++ wire c bs). rewrite lenN_app.
    destruct (N.leb_spec (lenN (frame c b)) (lenN (frame c b) + lenN (wire c bs))); [|lia].
    f_equal. replace (lenN (frame c b) + lenN (wire c bs) - lenN (frame c b)) with (lenN (wire c bs)) by lia. apply IH. }
  rewrite Hall in Hr.
  assert (r = []) as ->.
  { pose proof (lp_concat _ _ _ _ _ Hr) as H. apply (f_equal lenN) in H.
    change (concat (map (frame c) bodies)) with (wire c bodies) in H. rewrite lenN_app in H. apply lenN_0. lia. }
  rewrite (lp_app _ _ _ _ _ _ Hr). cbn [app]. rewrite (lp_eq c junk).
  destruct (N.ltb_spec (lenN junk) (head_len c)); [lia|]. rewrite Hb. rewrite app_nil_r. reflexivity.
Qed.

(** delivery of raw frames to the application *)
Definition deliver (c : cfg) (f : list byte) : list (list byte) :=
  if head_len c <? lenN f then [if stripped c then dropN (head_len c) f else f] else [].
Definition delivers (c : cfg) (fs : list (list byte)) : list (list byte) := concat (map (deliver c) fs).

Lemma delivers_shown c bodies : delivers c (map (frame c) bodies) = shown c bodies.
Proof.
  unfold delivers, shown. induction bodies as [|b bs IH]; [reflexivity|].
  cbn [map concat filter]. rewrite IH. unfold deliver at 1. rewrite lenN_frame.
  destruct b as [|x b']; cbn [nonempty].
  - destruct (N.ltb_spec (head_len c) (head_len c + lenN (@nil byte))); [rewrite lenN_nil in *; lia|reflexivity].
  - destruct (N.ltb_spec (head_len c) (head_len c + lenN (x :: b'))); [|rewrite lenN_cons in *; lia].
    cbn [map app]. f_equal. destruct (stripped c); [|reflexivity].
    unfold frame. apply app_drop_eq. unfold lenN. rewrite be_encode_len. lia.
Qed.
Lemma delivers_app c a b : delivers c (a ++ b) = delivers c a ++ delivers c b.
Proof. unfold delivers. rewrite map_app, concat_app. reflexivity. Qed.

(** prefixes of valid frames followed by anything *)
Lemma complete_all c bs k : lenN (wire c bs) <= k -> complete c bs k = bs.
Proof.
  revert k; induction bs as [|b bs IH]; intros k H; [reflexivity|]. cbn [complete].
  change (wire c (b :: bs)) with (frame c b ++ wire c bs) in H. rewrite lenN_app in H.
  destruct (N.leb_spec (lenN (frame c b)) k); [|lia]. f_equal. apply IH. lia.
Qed.

Lemma prefix_cases (p rest a b : list byte) : p ++ rest = a ++ b ->
  (exists q, p ++ q = a) \/ (exists q, p = a ++ q /\ q ++ rest = b).
Proof.
  revert a; induction p as [|x p IH]; intros a E.
  - left. exists a. reflexivity.
  - destruct a as [|y a].
    + right. exists (x :: p). split; [reflexivity|assumption].
    + cbn in E. inversion E as [[E1 E2]]. destruct (IH _ E2) as [[q Hq]|[q [Hq1 Hq2]]].
      * left. exists q. cbn. congruence.
      * right. exists q. cbn. split; congruence.
Qed.

Lemma lp_wire_junk_prefix c bodies junk p rest : forallb (fits c) bodies = true ->
  p ++ rest = wire c bodies ++ junk -> lenN p < lenN (wire c bodies) + head_len c ->
  exists r, lp c p = (map (frame c) (complete c bodies (lenN p)), r, false).
Proof.
  intros F E L. destruct (prefix_cases _ _ _ _ E) as [[q Hq]|[q [Hq1 Hq2]]].
  - eapply lp_wire_prefix; eassumption.
  - destruct (lp_wire_prefix c bodies (wire c bodies) [] F (app_nil_r _)) as [r Hr].
    subst p. rewrite lenN_app in L. rewrite complete_all in Hr by lia.
    rewrite complete_all by (rewrite lenN_app; lia).
    assert (r = []) as ->.
    { pose proof (lp_concat _ _ _ _ _ Hr) as H. apply (f_equal lenN) in H.
      change (concat (map (frame c) bodies)) with (wire c bodies) in H. rewrite lenN_app in H. apply lenN_0. lia. }
    rewrite (lp_app _ _ _ _ _ _ Hr). cbn [app]. rewrite (lp_eq c q).
    destruct (N.ltb_spec (lenN q) (head_len c)); [|lia]. rewrite app_nil_r. exists q. reflexivity.
Qed.

Lemma lp_wire_junk_bad c bodies junk p rest : forallb (fits c) bodies = true ->
  p ++ rest = wire c bodies ++ junk -> lenN (wire c bodies) + head_len c <= lenN p ->
  bad_len c (hd_val c junk) = true ->
  exists r, lp c p = (map (frame c) bodies, r, true).
Proof.
  intros F E L Hb. destruct (prefix_cases _ _ _ _ E) as [[q Hq]|[q [Hq1 Hq2]]].
  - exfalso. apply (f_equal lenN) in Hq. rewrite lenN_app in Hq. destruct (head_len_cases c); lia.
  - subst p. rewrite lenN_app in L. exists q. apply lp_wire_bad; [assumption|lia|].
    rewrite <- Hq2, hd_val_app in Hb by lia. assumption.
Qed.
