(** ext::prefix_suffix_unpacker refines a greedy reader of prefix/suffix messages. *)
From Coq Require Import Arith List NArith Bool Lia ZifyBool ZifyNat ZifyN.
From Verif Require Import M_Bytes M_Config M_Rx M_PrefixSuffix S_Affix L_Bytes L_Frame L_Rx.
Import ListNotations.
Open Scope N_scope.

(** first occurrence *)
Fixpoint findN (sub l : list byte) : option N :=
  if bytes_eqb (takeN (lenN sub) l) sub then Some 0
  else match l with [] => None | _ :: t => option_map (N.add 1) (findN sub t) end.

Lemma bytes_eqb_refl l : bytes_eqb l l = true.
Proof. apply bytes_eqb_eq. reflexivity. Qed.

Lemma findN_short sub l : lenN l < lenN sub -> findN sub l = None.
Proof.
  induction l as [|x l IH]; intros H; cbn [findN].
  - destruct (bytes_eqb (takeN (lenN sub) []) sub) eqn:E; [|reflexivity].
    apply bytes_eqb_eq in E. apply (f_equal lenN) in E. rewrite lenN_takeN in E. rewrite lenN_nil in *. lia.
  - destruct (bytes_eqb (takeN (lenN sub) (x :: l)) sub) eqn:E.
    + apply bytes_eqb_eq in E. apply (f_equal lenN) in E. rewrite lenN_takeN in E. lia.
    + rewrite IH; [reflexivity|]. rewrite lenN_cons in H. lia.
Qed.

Lemma findN_some sub : forall l i, findN sub l = Some i ->
  i + lenN sub <= lenN l /\ takeN (lenN sub) (dropN i l) = sub.
Proof.
  induction l as [|x l IH]; intros i; cbn [findN].
  - destruct (bytes_eqb (takeN (lenN sub) []) sub) eqn:E; [|discriminate].
    intros H; inversion H; subst. apply bytes_eqb_eq in E. rewrite dropN_0. split; [|assumption].
    apply (f_equal lenN) in E. rewrite lenN_takeN in E. lia.
  - destruct (bytes_eqb (takeN (lenN sub) (x :: l)) sub) eqn:E.
    + intros H; inversion H; subst. apply bytes_eqb_eq in E. rewrite dropN_0. split; [|assumption].
      apply (f_equal lenN) in E. rewrite lenN_takeN in E. lia.
    + destruct (findN sub l) as [j|]; [|discriminate]. cbn [option_map]. intros H. assert (i = 1 + j) by congruence. subst i.
      destruct (IH j eq_refl) as [H1 H2]. split; [rewrite lenN_cons; lia|].
      rewrite <- dropN_dropN. exact H2.
Qed.

Lemma findN_decomp sub l i : findN sub l = Some i -> l = takeN i l ++ sub ++ dropN (i + lenN sub) l.
Proof.
  intros H. destruct (findN_some _ _ _ H) as [H1 H2].
  rewrite <- (take_drop i l) at 1. f_equal. rewrite <- (take_drop (lenN sub) (dropN i l)) at 1.
  rewrite H2, dropN_dropN. reflexivity.
Qed.

Lemma findN_exists sub : forall x y, exists j, findN sub (x ++ sub ++ y) = Some j /\ j <= lenN x.
Proof.
  induction x as [|b x IH]; intros y.
  - exists 0. cbn [app]. split; [|lia].
    assert (E : bytes_eqb (takeN (lenN sub) (sub ++ y)) sub = true) by (rewrite app_take_eq by reflexivity; apply bytes_eqb_refl).
    destruct (sub ++ y); cbn [findN]; rewrite E; reflexivity.
  - cbn [app findN]. destruct (bytes_eqb (takeN (lenN sub) (b :: x ++ sub ++ y)) sub) eqn:E.
    + exists 0. split; [reflexivity|lia].
    + destruct (IH y) as (j & -> & Hj). exists (1 + j). split; [reflexivity|rewrite lenN_cons; lia].
Qed.

Lemma findN_app sub : forall l i b, findN sub l = Some i -> findN sub (l ++ b) = Some i.
Proof.
  induction l as [|x l IH]; intros i b; cbn [findN].
  - destruct (bytes_eqb (takeN (lenN sub) []) sub) eqn:E; [|discriminate].
    intros H; inversion H; subst. apply bytes_eqb_eq in E. apply (f_equal lenN) in E. rewrite lenN_takeN in E.
    assert (sub = []) by (apply lenN_0; rewrite lenN_nil in *; lia). subst sub. cbn [app].
    destruct b; reflexivity.
  - destruct (bytes_eqb (takeN (lenN sub) (x :: l)) sub) eqn:E.
    + intros H; inversion H; subst. apply bytes_eqb_eq in E.
      assert (lenN sub <= lenN (x :: l)). { apply (f_equal lenN) in E. rewrite lenN_takeN in E. lia. }
      change ((x :: l) ++ b) with (x :: (l ++ b)). cbn [findN].
      change (x :: (l ++ b)) with ((x :: l) ++ b). rewrite takeN_app_le by assumption. rewrite E, bytes_eqb_refl. reflexivity.
    + destruct (findN sub l) as [j|] eqn:EF; [|discriminate]. cbn [option_map]. intros H. assert (i = 1 + j) by congruence. subst i.
      change ((x :: l) ++ b) with (x :: (l ++ b)). cbn [findN].
      rewrite (IH j b eq_refl).
      destruct (bytes_eqb (takeN (lenN sub) (x :: l ++ b)) sub) eqn:E2; [|reflexivity].
      exfalso. destruct (findN_some _ _ _ EF) as [H1 _].
      change (x :: l ++ b) with ((x :: l) ++ b) in E2. rewrite takeN_app_le in E2 by (rewrite lenN_cons; lia). congruence.
Qed.

Section Aff.
Context (c : cfg) (a : affix) (HC : cfg_ok c = true) (HA : affix_ok c a = true).
Notation pl := (lenN (prefix a)).
Notation sl := (lenN (suffix a)).
Notation U := (ps_unpacker c a).

Lemma HA' : 0 < sl /\ min_len a < bufsz c /\ min_len a = pl + sl.
Proof. unfold affix_ok, min_len in *. lia. Qed.

(** the code's memmem is the first occurrence *)
Lemma memmem_loop_ok blk sub : 0 < lenN sub -> forall q off, off + lenN q <= lenN blk -> takeN (lenN q) (dropN off blk) = q ->
  lenN sub <= lenN q ->
  memmem_loop (N.to_nat (lenN q - lenN sub + 1)) blk off sub = Ok (option_map (N.add off) (findN sub q)).
Proof.
  intros Hs. induction q as [|x q IH]; intros off Hb Hq Hl; [rewrite lenN_nil in Hl; lia|].
  assert (Hn : exists m, N.to_nat (lenN (x :: q) - lenN sub + 1) = S m /\ m = N.to_nat (lenN (x :: q) - lenN sub)) by (eexists; split; [|reflexivity]; lia).
  destruct Hn as (m & -> & Hm). cbn [memmem_loop]. rewrite fetch_ok by lia. cbn [bind findN].
  assert (Ht : takeN (lenN sub) (dropN off blk) = takeN (lenN sub) (x :: q)).
  { rewrite <- Hq. rewrite takeN_takeN_le by lia. reflexivity. }
  rewrite Ht. destruct (bytes_eqb (takeN (lenN sub) (x :: q)) sub) eqn:E.
  { cbn [option_map]. rewrite N.add_0_r. reflexivity. }
  rewrite lenN_cons in *.
  destruct (N.leb_spec (lenN sub) (lenN q)) as [H|H].
  - replace m with (N.to_nat (lenN q - lenN sub + 1)) by lia. rewrite IH; try lia.
    + destruct (findN sub q); cbn [option_map]; [do 2 f_equal; lia|reflexivity].
    + apply (f_equal (dropN 1)) in Hq. rewrite dropN_takeN, dropN_dropN in Hq.
      replace (1 + lenN q - 1) with (lenN q) in Hq by lia. exact Hq.
  - replace m with 0%nat by lia. cbn [memmem_loop]. rewrite findN_short by assumption. reflexivity.
Qed.

Lemma memmem_ok blk off len sub q : 0 < lenN sub -> off + len <= lenN blk -> q = takeN len (dropN off blk) ->
  memmem blk off len sub = Ok (option_map (N.add off) (findN sub q)).
Proof.
  intros Hs Hb Hq. assert (Lq : lenN q = len) by (subst q; rewrite lenN_takeN, lenN_dropN; lia).
  unfold memmem. destruct (N.leb_spec (lenN sub) len).
  - rewrite <- Lq at 1. apply memmem_loop_ok; try assumption; try lia. rewrite Lq. symmetry. assumption.
  - rewrite findN_short by lia. reflexivity.
Qed.

(** greedy reader *)
Definition mism (p : list byte) : bool := (pl <=? lenN p) && negb (bytes_eqb (prefix a) (takeN pl p)).
Fixpoint psf (fuel : nat) (p : list byte) : list (list byte) * list byte * bool :=
  match fuel with
  | O => ([], p, false)
  | S f =>
    if mism p then ([], p, true)
    else if lenN p <=? min_len a then ([], p, false)
    else match findN (suffix a) (dropN pl p) with
         | None => ([], p, false)
         | Some i => let '(ms, r, e) := psf f (dropN (pl + i + sl) p) in (takeN (pl + i + sl) p :: ms, r, e)
         end
  end.
Definition ps (p : list byte) := psf (S (length p)) p.

Lemma psf_fuel f : forall p g, (length p < f)%nat -> (length p < g)%nat -> psf f p = psf g p.
Proof.
  destruct HA' as (A1 & A2 & A3).
  induction f as [|f IH]; intros p g Hf Hg; [lia|].
  destruct g as [|g]; [lia|]. cbn [psf].
  destruct (mism p); [reflexivity|].
  destruct (N.leb_spec (lenN p) (min_len a)); [reflexivity|].
  destruct (findN (suffix a) (dropN pl p)) as [i|]; [|reflexivity].
  assert (L : (length (dropN (pl + i + sl) p) < length p)%nat).
  { pose proof (lenN_dropN (pl + i + sl) p) as E. unfold lenN in *. lia. }
  rewrite (IH (dropN (pl + i + sl) p) g) by lia. reflexivity.
Qed.

Lemma ps_eq p : ps p =
    if mism p then ([], p, true)
    else if lenN p <=? min_len a then ([], p, false)
    else match findN (suffix a) (dropN pl p) with
         | None => ([], p, false)
         | Some i => let '(ms, r, e) := ps (dropN (pl + i + sl) p) in (takeN (pl + i + sl) p :: ms, r, e)
         end.
Proof.
  destruct HA' as (A1 & A2 & A3).
  unfold ps. cbn [psf]. destruct (mism p); [reflexivity|].
  destruct (N.leb_spec (lenN p) (min_len a)); [reflexivity|].
  destruct (findN (suffix a) (dropN pl p)) as [i|]; [|reflexivity].
  assert (L : (length (dropN (pl + i + sl) p) < length p)%nat).
  { pose proof (lenN_dropN (pl + i + sl) p) as E. unfold lenN in *. lia. }
  rewrite (psf_fuel (length p) _ (S (length (dropN (pl + i + sl) p)))) by lia. reflexivity.
Qed.

Lemma mism_app p q : pl <= lenN p -> mism (p ++ q) = mism p.
Proof. intros. unfold mism. rewrite takeN_app_le by assumption. rewrite lenN_app. f_equal. lia. Qed.

Lemma mism_long p : mism p = true -> pl <= lenN p.
Proof. unfold mism. lia. Qed.

Lemma ps_rest : forall p ms r, ps p = (ms, r, false) -> ps r = ([], r, false).
Proof.
  destruct HA' as (A1 & A2 & A3).
  induction p as [p IH] using list_len_ind. intros ms r. rewrite ps_eq.
  destruct (mism p) eqn:Hm; [discriminate|].
  destruct (N.leb_spec (lenN p) (min_len a)) as [Hl|Hl].
  { intros E; inversion E; subst. rewrite ps_eq, Hm. destruct (N.leb_spec (lenN r) (min_len a)); [reflexivity|lia]. }
  destruct (findN (suffix a) (dropN pl p)) as [i|] eqn:EF.
  2:{ intros E; inversion E; subst. rewrite ps_eq, Hm. destruct (N.leb_spec (lenN r) (min_len a)); [lia|]. rewrite EF. reflexivity. }
  destruct (ps (dropN (pl + i + sl) p)) as [[ms' r'] e'] eqn:E'. intros E; inversion E; subst.
  eapply IH; [|exact E']. rewrite lenN_dropN. lia.
Qed.

Lemma ps_app : forall x b ms r e, ps x = (ms, r, e) ->
  ps (x ++ b) = if e then (ms, r ++ b, true) else let '(ms', r', e') := ps (r ++ b) in (ms ++ ms', r', e').
Proof.
  destruct HA' as (A1 & A2 & A3).
  induction x as [x IH] using list_len_ind. intros b ms r e E. rewrite ps_eq in E.
  destruct (mism x) eqn:Hm.
  { inversion E; subst. rewrite ps_eq. rewrite mism_app by (apply mism_long; assumption). rewrite Hm. reflexivity. }
  destruct (N.leb_spec (lenN x) (min_len a)) as [Hl|Hl].
  { inversion E; subst. destruct (ps (r ++ b)) as [[? ?] ?]. reflexivity. }
  destruct (findN (suffix a) (dropN pl x)) as [i|] eqn:EF.
  2:{ inversion E; subst. destruct (ps (r ++ b)) as [[? ?] ?]. reflexivity. }
  destruct (findN_some _ _ _ EF) as [F1 _]. rewrite lenN_dropN in F1.
  rewrite (ps_eq (x ++ b)). rewrite mism_app by lia. rewrite Hm. rewrite lenN_app.
  destruct (N.leb_spec (lenN x + lenN b) (min_len a)); [lia|].
  rewrite (dropN_app_le pl) by lia. rewrite (findN_app _ _ _ b EF).
  rewrite dropN_app_le, takeN_app_le by lia.
  destruct (ps (dropN (pl + i + sl) x)) as [[ms1 r1] e1] eqn:E1. inversion E; subst.
  assert (LT : lenN (dropN (pl + i + sl) x) < lenN x) by (rewrite lenN_dropN; lia). rewrite (IH _ LT b _ _ _ E1). destruct e; [reflexivity|].
  destruct (ps (r ++ b)) as [[? ?] ?]. reflexivity.
Qed.

Lemma ps_concat : forall p ms r e, ps p = (ms, r, e) -> concat ms ++ r = p.
Proof.
  destruct HA' as (A1 & A2 & A3).
  induction p as [p IH] using list_len_ind. intros ms r e. rewrite ps_eq.
  destruct (mism p); [intros E; inversion E; reflexivity|].
  destruct (N.leb_spec (lenN p) (min_len a)); [intros E; inversion E; reflexivity|].
  destruct (findN (suffix a) (dropN pl p)) as [i|]; [|intros E; inversion E; reflexivity].
  destruct (ps (dropN (pl + i + sl) p)) as [[ms' r'] e'] eqn:E'. intros E; inversion E; subst.
  cbn [concat]. rewrite <- app_assoc. assert (LT : lenN (dropN (pl + i + sl) p) < lenN p) by (rewrite lenN_dropN; lia). rewrite (IH _ LT _ _ _ E'). apply take_drop.
Qed.

(** what the application sees of raw messages *)
Definition adeliver (f : list byte) : list (list byte) :=
  if min_len a <? lenN f then [if stripped c then takeN (lenN f - min_len a) (dropN pl f) else f] else [].
Definition adelivers (fs : list (list byte)) : list (list byte) := concat (map adeliver fs).
Lemma adelivers_app x y : adelivers (x ++ y) = adelivers x ++ adelivers y.
Proof. unfold adelivers. rewrite map_app, concat_app. reflexivity. Qed.

Lemma lenN_amsg b : lenN (amsg a b) = pl + lenN b + sl.
Proof. unfold amsg. rewrite !lenN_app. lia. Qed.

Lemma adeliver_msg b : adeliver (amsg a b) = ashown c a [b].
Proof.
  destruct HA' as (A1 & A2 & A3). unfold adeliver, ashown. rewrite lenN_amsg.
  destruct b as [|x b]; cbn [filter map].
  - rewrite lenN_nil. destruct (N.ltb_spec (min_len a) (pl + 0 + sl)); [lia|reflexivity].
  - rewrite lenN_cons. destruct (N.ltb_spec (min_len a) (pl + (1 + lenN b) + sl)); [|lia].
    destruct (stripped c); [|reflexivity]. f_equal. unfold amsg. rewrite app_drop_eq by reflexivity.
    apply app_take_eq. rewrite lenN_cons. lia.
Qed.
Lemma ashown_cons b bs : ashown c a (b :: bs) = ashown c a [b] ++ ashown c a bs.
Proof. unfold ashown. destruct b; reflexivity. Qed.

Lemma acomplete_0 bs : acomplete a bs 0 = [].
Proof.
  destruct HA' as (A1 & A2 & A3). destruct bs as [|b bs]; [reflexivity|]. cbn [acomplete]. rewrite lenN_amsg.
  destruct (N.leb_spec (pl + lenN b + sl) 0); [lia|reflexivity].
Qed.

Lemma ends_first_app b x : afits c a b -> findN (suffix a) (b ++ suffix a ++ x) = Some (lenN b).
Proof.
  intros [_ F]. rewrite app_assoc. apply findN_app.
  destruct (findN_exists (suffix a) b []) as (j & E & Hj). rewrite app_nil_r in E. rewrite E. f_equal.
  pose proof (findN_decomp _ _ _ E) as D. specialize (F _ _ D).
  apply (f_equal lenN) in F. rewrite lenN_dropN, lenN_app, lenN_nil in F. lia.
Qed.

Lemma ps_wire_prefix : forall bodies p rest, Forall (afits c a) bodies -> p ++ rest = awire a bodies ->
  exists fs r, ps p = (fs, r, false) /\ adelivers fs = ashown c a (acomplete a bodies (lenN p)) /\ lenN r < bufsz c
   /\ (Forall (fun b => b <> []) bodies -> rest = [] -> r = []).
Proof.
  destruct HA' as (A1 & A2 & A3).
  induction bodies as [|b bs IH]; intros p rest F E.
  { cbn in E. apply app_eq_nil in E as [-> _]. exists [], []. rewrite ps_eq. unfold mism.
    rewrite lenN_nil. cbn [takeN N.to_nat firstn].
    destruct ((pl <=? 0) && negb (bytes_eqb (prefix a) (takeN pl []))) eqn:Em.
    { assert (prefix a = []) as EP by (apply lenN_0; lia). rewrite EP in Em. cbn in Em. discriminate. }
    cbn [N.leb]. destruct (N.leb_spec 0 (min_len a)); [|lia]. cbn. repeat split; lia. }
  inversion F as [|? ? Fb Fs]; subst.
  change (awire a (b :: bs)) with (amsg a b ++ awire a bs) in E.
  cbn [acomplete].
  destruct (N.leb_spec (lenN (amsg a b)) (lenN p)) as [Hc|Hc].
  - assert (Hp : p = amsg a b ++ dropN (lenN (amsg a b)) p).
    { rewrite <- (take_drop (lenN (amsg a b)) p) at 1. f_equal.
      apply (f_equal (takeN (lenN (amsg a b)))) in E.
      rewrite takeN_app_le in E by lia. rewrite E. apply app_take_eq. reflexivity. }
    assert (E2 : dropN (lenN (amsg a b)) p ++ rest = awire a bs).
    { apply (f_equal (dropN (lenN (amsg a b)))) in E.
      rewrite dropN_app_le in E by lia. rewrite E. apply app_drop_eq. reflexivity. }
    destruct (IH _ _ Fs E2) as (fs & r & Hr & Hd & Hlr & Hend). rewrite lenN_dropN in Hd.
    set (p' := dropN (lenN (amsg a b)) p) in *.
    assert (Lp : lenN p = lenN (amsg a b) + lenN p') by (rewrite Hp, lenN_app; reflexivity).
    assert (Hmm : mism p = false).
    { unfold mism. rewrite Hp. unfold amsg. rewrite <- app_assoc. rewrite app_take_eq by reflexivity.
      rewrite bytes_eqb_refl. cbn [negb]. apply andb_false_r. }
    rewrite ps_eq, Hmm. rewrite lenN_amsg in *.
    destruct (N.leb_spec (lenN p) (min_len a)) as [Hl|Hl].
    + assert (b = []) by (apply lenN_0; lia). subst b. rewrite lenN_nil in *.
      exists [], p. split; [reflexivity|].
      replace (lenN p - (pl + 0 + sl)) with 0 by lia. rewrite acomplete_0. cbn. repeat split; [lia|].
      intros HN. inversion HN as [|? ? HN1 HN2]. congruence.
    + assert (Hdp : dropN pl p = b ++ suffix a ++ p').
      { rewrite Hp. unfold amsg. rewrite <- !app_assoc. apply app_drop_eq. reflexivity. }
      rewrite Hdp, ends_first_app by assumption.
      replace (dropN (pl + lenN b + sl) p) with p' by (unfold p'; rewrite lenN_amsg; reflexivity).
      assert (Htk : takeN (pl + lenN b + sl) p = amsg a b).
      { rewrite Hp. apply app_take_eq. apply lenN_amsg. }
      rewrite Htk, Hr. exists (amsg a b :: fs), r. split; [reflexivity|].
      unfold adelivers. cbn [map concat]. fold (adelivers fs). rewrite Hd, adeliver_msg, <- ashown_cons.
      repeat split; [assumption|]. intros HN HR. inversion HN as [|? ? HN1 HN2]. apply Hend; auto.
  - exists [], p. rewrite ps_eq.
    assert (Hpre : exists y, p ++ y = amsg a b /\ y <> []).
    { exists (dropN (lenN p) (amsg a b)). split.
      - apply (f_equal (takeN (lenN p))) in E. rewrite takeN_app_le, takeN_app_le in E by lia.
        rewrite takeN_all in E by lia. rewrite E at 1. apply take_drop.
      - intros Hx. apply (f_equal lenN) in Hx. rewrite lenN_dropN, lenN_nil in Hx. lia. }
    destruct Hpre as (y & Hy & Hyn).
    assert (Hmm : mism p = false).
    { unfold mism. destruct (N.leb_spec pl (lenN p)); [|reflexivity]. cbn [andb].
      apply (f_equal (takeN pl)) in Hy. rewrite takeN_app_le in Hy by assumption. rewrite Hy. unfold amsg.
      rewrite app_take_eq by reflexivity. rewrite bytes_eqb_refl. reflexivity. }
    rewrite Hmm. assert (HB : lenN p < bufsz c) by (destruct Fb as [Fb _]; lia).
    assert (HE : Forall (fun b => b <> []) (b :: bs) -> rest = [] -> p = []).
    { intros _ HR. subst rest. rewrite app_nil_r in E. apply (f_equal lenN) in E. rewrite lenN_app in E. lia. }
    destruct (N.leb_spec (lenN p) (min_len a)) as [Hl|Hl].
    { repeat split; auto. }
    assert (Hdp : dropN pl p ++ y = b ++ suffix a).
    { apply (f_equal (dropN pl)) in Hy. rewrite dropN_app_le in Hy by lia. rewrite Hy. unfold amsg. apply app_drop_eq. reflexivity. }
    destruct (findN (suffix a) (dropN pl p)) as [i|] eqn:EF; [|repeat split; auto].
    exfalso. pose proof (findN_decomp _ _ _ EF) as D. rewrite D in Hdp. destruct Fb as [_ Fb].
    rewrite <- !app_assoc in Hdp. symmetry in Hdp. specialize (Fb _ _ Hdp). apply app_eq_nil in Fb as [_ Fb]. contradiction.
Qed.

(** cur_msg_len while [p] is pending *)
Definition curp (p : list byte) : N := if pl <=? lenN p then 0 else npos c.

Lemma npos_pos : 0 < npos c.
Proof. destruct (cfg_ok_facts c HC) as (C1 & C2 & C3 & C4). lia. Qed.

(** admissible values of cur_msg_len when peek_msg looks at [q] *)
Definition curok (q : list byte) (cu : N) : Prop :=
  cu = npos c \/ (cu = 0 /\ pl <= lenN q /\ mism q = false) \/
  (exists i, mism q = false /\ min_len a < lenN q /\ findN (suffix a) (dropN pl q) = Some i /\ cu = pl + i + sl).

Lemma peek_ok blk off q len cu : off + len <= lenN blk -> q = takeN len (dropN off blk) -> len <= bufsz c -> curok q cu ->
  peek_msg c a blk off len cu =
    Ok (if mism q then (npos c, 0)
        else if lenN q <=? min_len a then (curp q, bufsz c)
        else match findN (suffix a) (dropN pl q) with
             | Some i => (pl + i + sl, 0)
             | None => (0, if bufsz c <=? lenN q then 0 else bufsz c)
             end).
Proof.
  destruct HA' as (A1 & A2 & A3). pose proof npos_pos as NP.
  destruct (cfg_ok_facts c HC) as (C1 & C2 & C3 & C4).
  intros Hb Hq HL Hcu. assert (Lq : lenN q = len) by (subst q; rewrite lenN_takeN, lenN_dropN; lia).
  assert (TAIL : forall cu0, mism q = false -> peek_tail c a blk off len cu0 =
    Ok (if lenN q <=? min_len a then (cu0, bufsz c) else match findN (suffix a) (dropN pl q) with
             | Some i => (pl + i + sl, 0)
             | None => (cu0, if bufsz c <=? lenN q then 0 else bufsz c)
             end)).
  { intros cu0 Hm. unfold peek_tail. rewrite Lq. destruct (N.ltb_spec (min_len a) len).
    - destruct (N.leb_spec len (min_len a)); [lia|].
      rewrite (memmem_ok blk (off + pl) (len - pl) (suffix a) (dropN pl q)); try lia.
      2:{ subst q. rewrite dropN_takeN, dropN_dropN. reflexivity. }
      cbn [bind]. destruct (findN (suffix a) (dropN pl q)) as [i|]; cbn [option_map].
      + do 2 f_equal. lia.
      + destruct (bufsz c <=? len); reflexivity.
    - destruct (N.leb_spec len (min_len a)); [reflexivity|lia]. }
  unfold peek_msg. destruct (N.eqb_spec cu (npos c)) as [Hn|Hn].
  - destruct (N.leb_spec pl len) as [Hp|Hp].
    + rewrite fetch_ok by lia. cbn [bind].
      assert (Ht : takeN pl (dropN off blk) = takeN pl q) by (subst q; rewrite takeN_takeN_le by lia; reflexivity).
      rewrite Ht. unfold mism at 1. rewrite Lq. destruct (N.leb_spec pl len); [|lia]. cbn [andb].
      destruct (bytes_eqb (prefix a) (takeN pl q)) eqn:Eb; cbn [negb].
      * rewrite TAIL by (unfold mism; rewrite Eb; apply andb_false_r). rewrite Lq. unfold curp. rewrite Lq.
        destruct (N.leb_spec pl len); [|lia]. reflexivity.
      * congruence.
    + assert (Hm : mism q = false) by (unfold mism; lia).
      rewrite Hm, TAIL by assumption. rewrite Lq. destruct (N.leb_spec len (min_len a)); [|lia].
      unfold curp. rewrite Lq. destruct (N.leb_spec pl len); [lia|]. congruence.
  - destruct Hcu as [Hcu|[(Hcu & Hp & Hm)|(i & Hm & Hl & HF & Hcu)]]; [contradiction| |].
    + subst cu. cbn [N.eqb negb]. rewrite Hm, TAIL by assumption. unfold curp. destruct (N.leb_spec pl (lenN q)); [|lia]. reflexivity.
    + destruct (N.eqb_spec cu 0); [lia|]. cbn [negb]. rewrite Hm, HF. destruct (N.leb_spec (lenN q) (min_len a)); [lia|]. rewrite Hcu. reflexivity.
Qed.

Lemma loop_ok blk : forall q off rem cu fuel fs r e,
  q = takeN rem (dropN off blk) -> off + rem <= lenN blk -> rem <= bufsz c -> curok q cu -> (N.to_nat rem < fuel)%nat ->
  ps q = (fs, r, e) ->
  exists cu', ps_loop fuel c a blk off cu rem = Ok (adelivers fs, off + (rem - lenN r), cu', lenN r) /\
    lenN r <= rem /\ (fs = [] <-> lenN r = rem) /\ (e = true -> cu' = npos c) /\ (e = false -> cu' = curp r).
Proof.
  destruct HA' as (A1 & A2 & A3). pose proof npos_pos as NP.
  destruct (cfg_ok_facts c HC) as (C1 & C2 & C3 & C4).
  induction q as [q IH] using list_len_ind. intros off rem cu fuel fs r e Hq Hb HB Hcu Hf Hps.
  assert (Lq : lenN q = rem) by (subst q; rewrite lenN_takeN, lenN_dropN; lia).
  destruct fuel as [|fuel]; [lia|]. cbn [ps_loop].
  rewrite (peek_ok blk off q rem cu) by assumption. cbn [bind].
  rewrite ps_eq in Hps.
  destruct (mism q) eqn:Hm.
  { inversion Hps; subst fs r e. rewrite (N.eqb_refl (npos c)). cbn [N.eqb andb negb].
    rewrite Lq. exists (npos c). replace (rem - rem) with 0 by lia. rewrite N.add_0_r.
    repeat split; try congruence; try lia. }
  destruct (N.leb_spec (lenN q) (min_len a)) as [Hl|Hl].
  { inversion Hps; subst fs r e. destruct (N.eqb_spec (bufsz c) 0); [lia|]. cbn [andb].
    rewrite Lq. exists (curp q). replace (rem - rem) with 0 by lia. rewrite N.add_0_r.
    repeat split; try congruence; try lia. }
  destruct (findN (suffix a) (dropN pl q)) as [i|] eqn:EF.
  2:{ inversion Hps; subst fs r e. rewrite (N.eqb_refl 0). cbn [negb]. rewrite andb_false_r. rewrite Lq. exists 0.
      replace (rem - rem) with 0 by lia. rewrite N.add_0_r.
      repeat split; try congruence; try lia. intros _. unfold curp. destruct (N.leb_spec pl (lenN q)); lia. }
  destruct (findN_some _ _ _ EF) as [F1 _]. rewrite lenN_dropN in F1.
  rewrite (N.eqb_refl 0). destruct (N.eqb_spec (pl + i + sl) (npos c)); [lia|]. destruct (N.eqb_spec (pl + i + sl) 0); [lia|]. cbn [andb negb].
  destruct (N.ltb_spec (pl + i + sl) (min_len a)); [lia|]. destruct (N.ltb_spec rem (pl + i + sl)); [lia|].
  destruct (ps (dropN (pl + i + sl) q)) as [[fs1 r1] e1] eqn:E1. inversion Hps; subst fs r e.
  assert (Hms : (if min_len a <? pl + i + sl
   then bind (if stripped c then fetch blk (off + pl) (pl + i + sl - min_len a) else fetch blk off (pl + i + sl)) (fun m : list byte => Ok [m])
   else Ok []) = Ok (adeliver (takeN (pl + i + sl) q))).
  { unfold adeliver. rewrite lenN_takeN. replace (N.min (pl + i + sl) (lenN q)) with (pl + i + sl) by lia.
    destruct (N.ltb_spec (min_len a) (pl + i + sl)); [|reflexivity].
    destruct (stripped c).
    - rewrite fetch_ok by lia. cbn [bind]. do 2 f_equal. subst q. rewrite dropN_takeN, dropN_takeN, dropN_dropN.
      rewrite !takeN_takeN. f_equal. lia.
    - rewrite fetch_ok by lia. cbn [bind]. do 2 f_equal. subst q. rewrite takeN_takeN_le by lia. reflexivity. }
  rewrite Hms. cbn [bind].
  destruct (IH (dropN (pl + i + sl) q)) with (off := off + (pl + i + sl)) (rem := rem - (pl + i + sl)) (cu := npos c) (fuel := fuel) (fs := fs1) (r := r1) (e := e1)
    as (cu' & EQ & H1 & H2 & H3 & H4); try assumption; try lia.
  { rewrite lenN_dropN. lia. }
  { subst q. rewrite dropN_takeN, dropN_dropN. reflexivity. }
  { left. reflexivity. }
  rewrite EQ. cbn [bind]. exists cu'. repeat split; try assumption; try lia; try discriminate.
  unfold adelivers at 2. cbn [map concat]. fold (adelivers fs1). do 3 f_equal. f_equal. lia.
Qed.

Definition I (st : rxst pst) (p : list byte) : Prop :=
  match st with
  | Halted _ => False
  | Reading s sp t lim =>
    lenN (praw s) = bufsz c /\ sp = bufsz c - prem s /\ prem s + t < bufsz c /\ lim = sp - t /\
    p = takeN (prem s + t) (praw s) /\ ps p = ([], p, false) /\ pcur s = curp p
  end.

Lemma ps_none_curok p : ps p = ([], p, false) -> curok p (curp p) /\ mism p = false.
Proof.
  rewrite ps_eq. unfold curok, curp. destruct (mism p) eqn:Hm; [discriminate|]. intros _. split; [|reflexivity].
  destruct (N.leb_spec pl (lenN p)); auto.
Qed.

Lemma start_ok s p : lenN (praw s) = bufsz c -> prem s = lenN p -> lenN p < bufsz c -> p = takeN (prem s) (praw s) ->
  ps p = ([], p, false) -> pcur s = curp p -> I (start_read U s) p.
Proof.
  destruct HA' as (A1 & A2 & A3). intros Lr Lm Hlt Hp Hps Hcur.
  destruct (ps_none_curok _ Hps) as [Hco Hm].
  unfold start_read. cbn [ps_unpacker u_space u_cc]. unfold ps_space, ps_cc.
  destruct (N.ltb_spec (prem s) (bufsz c)); [|lia].
  destruct (N.eqb_spec (lenN (praw s) - prem s) 0); [lia|].
  rewrite N.add_0_r. destruct (N.ltb_spec (bufsz c) (prem s)); [lia|].
  rewrite (peek_ok (praw s) 0 p (prem s) (pcur s)); [|lia|exact Hp|lia|rewrite Hcur; exact Hco].
  cbn [bind]. rewrite Hm. rewrite ps_eq, Hm in Hps.
  assert (HX : exists m, (if lenN p <=? min_len a then (curp p, bufsz c)
        else match findN (suffix a) (dropN pl p) with
             | Some i => (pl + i + sl, 0)
             | None => (0, if bufsz c <=? lenN p then 0 else bufsz c)
             end) = (curp p, m) /\ m = bufsz c).
  { destruct (N.leb_spec (lenN p) (min_len a)); [eauto|].
    destruct (findN (suffix a) (dropN pl p)) as [i|].
    - destruct (ps (dropN (pl + i + sl) p)) as [[? ?] ?]. discriminate.
    - destruct (N.leb_spec (bufsz c) (lenN p)); [lia|]. eexists. split; [|reflexivity].
      unfold curp. destruct (N.leb_spec pl (lenN p)); [reflexivity|lia]. }
  destruct HX as (m & -> & Hm2). destruct (N.eqb_spec m 0); [lia|].
  cbn [I praw pcur prem]. repeat split; try assumption; try lia.
  - rewrite N.add_0_r. assumption.
  - rewrite ps_eq, Hm. exact Hps.
Qed.

Lemma reset_I s : lenN (praw s) = bufsz c -> I (start_read U (ps_reset c s)) [].
Proof.
  destruct HA' as (A1 & A2 & A3). intros L. 
  assert (Hm : mism [] = false).
  { unfold mism. rewrite lenN_nil. destruct (N.leb_spec pl 0); [|reflexivity].
    assert (EP : prefix a = []) by (apply lenN_0; lia). rewrite EP. reflexivity. }
  (* cur_msg_len is -1 here, also for an empty prefix *)
  unfold start_read. cbn [ps_unpacker u_space u_cc]. unfold ps_space, ps_cc. cbn [ps_reset praw pcur prem].
  destruct (N.ltb_spec 0 (bufsz c)); [|lia].
  destruct (N.eqb_spec (lenN (praw s) - 0) 0); [lia|].
  cbn [ps_reset praw pcur prem].
  destruct (N.ltb_spec (bufsz c) (0 + 0)); [lia|]. change (0 + 0) with 0.
  rewrite (peek_ok (praw s) 0 [] 0 (npos c)); [|lia|reflexivity|lia|left; reflexivity].
  cbn [bind]. rewrite Hm. rewrite lenN_nil. destruct (N.leb_spec 0 (min_len a)); [|lia].
  destruct (N.eqb_spec (bufsz c) 0); [lia|].
  cbn [I praw pcur prem]. repeat split; try assumption; try lia.
  rewrite ps_eq, Hm, lenN_nil. destruct (N.leb_spec 0 (min_len a)); [reflexivity|lia].
Qed.

(** the end of a read *)
Lemma complete_ok s t q fs r e : lenN (praw s) = bufsz c -> prem s + t <= bufsz c -> 0 < t ->
  q = takeN (prem s + t) (praw s) -> curok q (pcur s) -> ps q = (fs, r, e) ->
  exists st', complete_read U s t = (st', [mk_rxout (adelivers fs) (match fs with [] => true | _ => false end)]) /\
    match fs with
    | [] => I st' []
    | _ => if e then st' = Halted ZeroByteRead else I st' r
    end.
Proof.
  destruct HA' as (A1 & A2 & A3). destruct (cfg_ok_facts c HC) as (C1 & C2 & C3 & C4).
  intros Lr Hb Ht Hq Hcu Hps. assert (Lq : lenN q = prem s + t) by (rewrite Hq, lenN_takeN; lia).
  unfold complete_read. cbn [ps_unpacker u_parse u_reset]. unfold ps_parse.
  destruct (N.ltb_spec (bufsz c) (prem s + t)); [lia|].
  destruct (loop_ok (praw s) q 0 (prem s + t) (pcur s) (N.to_nat (prem s + t + 1)) fs r e) as (cu' & EQ & H1 & H2 & H3 & H4);
    try assumption; try lia.
  rewrite EQ. cbn [bind]. rewrite N.add_0_l.
  destruct fs as [|f fs].
  { destruct H2 as [H2 _]. rewrite H2 by reflexivity. replace (prem s + t - (prem s + t)) with 0 by lia. cbn [N.eqb negb].
    eexists. split; [reflexivity|]. apply reset_I. exact Lr. }
  destruct (N.eqb_spec (prem s + t - lenN r) 0) as [Hz|Hz].
  { exfalso. destruct H2 as [_ H2]. specialize (H2 ltac:(lia)). discriminate. }
  pose proof (ps_concat _ _ _ _ Hps) as Hcc.
  assert (Hr : r = takeN (lenN r) (dropN (prem s + t - lenN r) (praw s))).
  { assert (LC : lenN (concat (f :: fs)) = prem s + t - lenN r) by (apply (f_equal lenN) in Hcc; rewrite lenN_app in Hcc; lia).
    apply (f_equal (dropN (prem s + t - lenN r))) in Hcc. rewrite app_drop_eq in Hcc by assumption.
    rewrite Hcc at 1. rewrite Hq at 1. rewrite dropN_takeN. f_equal. lia. }
  assert (HM : exists raw', (if 0 <? lenN r then bind (fetch (praw s) (prem s + t - lenN r) (lenN r)) (fun l => bind (blit (praw s) 0 l) (fun r0 => Ok (mk_pst r0 cu' (lenN r), adelivers (f :: fs), true)))
     else Ok (mk_pst (praw s) cu' (lenN r), adelivers (f :: fs), true)) = Ok (mk_pst raw' cu' (lenN r), adelivers (f :: fs), true)
     /\ lenN raw' = bufsz c /\ takeN (lenN r) raw' = r).
  { destruct (N.ltb_spec 0 (lenN r)).
    - rewrite fetch_ok by lia. cbn [bind]. rewrite <- Hr.
      destruct (blit (praw s) 0 r) as [r1|b] eqn:EB; [|rewrite blit_ok in EB by lia; discriminate].
      cbn [bind]. exists r1. repeat split; [rewrite (blit_len _ _ _ _ EB); assumption|].
      apply blit_take in EB. rewrite N.add_0_l in EB. exact EB.
    - exists (praw s). repeat split; [assumption|]. replace (lenN r) with 0 by lia. symmetry. apply lenN_0. lia. }
  destruct HM as (raw' & -> & Lraw & Htk). cbn [negb]. eexists. split; [reflexivity|].
  destruct e.
  - (* a wrong prefix behind the messages *)
    specialize (H3 eq_refl). subst cu'.
    assert (Hmr : mism r = true).
    { clear - Hps HA HC. destruct HA' as (A1 & A2 & A3). revert Hps. generalize (f :: fs). revert q r.
      induction q as [q IH] using list_len_ind. intros r l. rewrite ps_eq.
      destruct (mism q) eqn:Hm; [intros E; inversion E; subst; assumption|].
      destruct (N.leb_spec (lenN q) (min_len a)); [discriminate|].
      destruct (findN (suffix a) (dropN pl q)) as [i|]; [|discriminate].
      destruct (ps (dropN (pl + i + sl) q)) as [[ms1 r1] e1] eqn:E1. intros E; inversion E; subst.
      eapply IH; [|exact E1]. rewrite lenN_dropN. lia. }
    unfold start_read. cbn [ps_unpacker u_space u_cc]. unfold ps_space, ps_cc. cbn [praw pcur prem].
    destruct (N.ltb_spec (lenN r) (bufsz c)); [|lia].
    destruct (N.eqb_spec (lenN raw' - lenN r) 0); [lia|].
    cbn [praw pcur prem]. rewrite N.add_0_r. destruct (N.ltb_spec (bufsz c) (lenN r)); [lia|].
    rewrite (peek_ok raw' 0 r (lenN r) (npos c)); [|lia|symmetry; exact Htk|lia|left; reflexivity].
    cbn [bind]. rewrite Hmr. reflexivity.
  - specialize (H4 eq_refl). subst cu'.
    apply start_ok; cbn [praw pcur prem]; try assumption; try reflexivity; try lia.
    + symmetry. exact Htk.
    + eapply ps_rest. exact Hps.
Qed.

Lemma feed_gen awf st p d st' o fs r e : I st p -> feed awf U st d = Some (st', o) -> ps (p ++ d) = (fs, r, e) ->
  (e = false /\ lenN r < bufsz c /\ all_msgs o = adelivers fs /\ any_err o = false /\ I st' r) \/
  (fs = [] /\ (e = true \/ bufsz c <= lenN r) /\ all_msgs o = [] /\ any_err o = true /\ I st' []) \/
  (fs <> [] /\ e = true /\ all_msgs o = adelivers fs /\ any_err o = false /\ st' = Halted ZeroByteRead).
Proof.
  destruct HA' as (A1 & A2 & A3). destruct (cfg_ok_facts c HC) as (C1 & C2 & C3 & C4). pose proof npos_pos as NP.
  destruct st as [s sp t lim|h]; [|intros []]. cbn [I].
  intros (Lr & Hsp & Hlt & Hlim & Hp & Hps & Hcur) HF HS.
  unfold feed in HF. destruct ((lenN d =? 0) || (lim <? lenN d)) eqn:Hleg; [discriminate|].
  apply orb_false_elim in Hleg as [Hd0 Hd1]. inversion HF as [HF']; clear HF.
  cbn [ps_unpacker u_write u_cc] in HF'. unfold ps_write in HF'.
  destruct (blit (praw s) (prem s + t) d) as [raw'|b] eqn:EB; cbn [bind] in HF';
    [|rewrite blit_ok in EB by lia; discriminate].
  pose proof (blit_len _ _ _ _ EB) as Lr'. pose proof (blit_take _ _ _ _ EB) as Htk. rewrite <- Hp in Htk.
  assert (Lp : lenN p = prem s + t) by (rewrite Hp, lenN_takeN; lia).
  assert (Lpd : lenN (p ++ d) = prem s + (t + lenN d)) by (rewrite lenN_app; lia).
  assert (Hpd : p ++ d = takeN (prem s + (t + lenN d)) raw') by (rewrite N.add_assoc; congruence).
  destruct (ps_none_curok _ Hps) as [Hco Hm].
  assert (Hco2 : curok (p ++ d) (pcur s)).
  { rewrite Hcur. unfold curp. destruct (N.leb_spec pl (lenN p)); [|left; reflexivity].
    right. left. rewrite mism_app by assumption. rewrite lenN_app. repeat split; [lia|assumption]. }
  assert (Lrr : lenN r <= lenN (p ++ d)).
  { pose proof (ps_concat _ _ _ _ HS) as Hcc. apply (f_equal lenN) in Hcc. rewrite lenN_app in Hcc. lia. }
  assert (Fin : forall s2, praw s2 = raw' -> prem s2 = prem s -> curok (p ++ d) (pcur s2) ->
     complete_read U s2 (t + lenN d) = (st', o) ->
     (fs <> [] \/ e = true \/ bufsz c <= lenN r) ->
  (e = false /\ lenN r < bufsz c /\ all_msgs o = adelivers fs /\ any_err o = false /\ I st' r) \/
  (fs = [] /\ (e = true \/ bufsz c <= lenN r) /\ all_msgs o = [] /\ any_err o = true /\ I st' []) \/
  (fs <> [] /\ e = true /\ all_msgs o = adelivers fs /\ any_err o = false /\ st' = Halted ZeroByteRead)).
  { intros s2 Hr2 Hm2 Hc2 HCR Hwhy.
    destruct (complete_ok s2 (t + lenN d) (p ++ d) fs r e) as (st1 & E1 & HI1); try assumption; try lia.
    { congruence. } { rewrite Hm2, Hr2. assumption. }
    rewrite E1 in HCR. inversion HCR; subst st1 o. unfold all_msgs, any_err. cbn. rewrite app_nil_r, orb_false_r.
    destruct fs as [|f fs].
    - right. left. repeat split; auto. destruct Hwhy as [Hwhy|Hwhy]; [congruence|assumption].
    - destruct e.
      + right. right. repeat split; auto. discriminate.
      + left. repeat split; auto. pose proof (ps_concat _ _ _ _ HS) as Hcc. apply (f_equal lenN) in Hcc.
        rewrite lenN_app in Hcc. rewrite ps_eq in HS. destruct (mism (p ++ d)); [discriminate|].
        destruct (N.leb_spec (lenN (p ++ d)) (min_len a)); [discriminate|].
        destruct (findN (suffix a) (dropN pl (p ++ d))) as [i|] eqn:EF; [|discriminate].
        destruct (findN_some _ _ _ EF) as [F1 _]. rewrite lenN_dropN in F1.
        destruct (ps (dropN (pl + i + sl) (p ++ d))) as [[ms1 r1] e1] eqn:E2. inversion HS; subst.
        cbn [concat] in Hcc. rewrite lenN_app, lenN_takeN in Hcc. lia. }
  assert (Hfull : bufsz c <= prem s + (t + lenN d) -> fs <> [] \/ e = true \/ bufsz c <= lenN r).
  { intros Hfu. rewrite ps_eq in HS. destruct (mism (p ++ d)); [inversion HS; auto|].
    destruct (N.leb_spec (lenN (p ++ d)) (min_len a)); [lia|].
    destruct (findN (suffix a) (dropN pl (p ++ d))) as [i|].
    - destruct (ps (dropN (pl + i + sl) (p ++ d))) as [[? ?] ?]. inversion HS. left. discriminate.
    - inversion HS; subst. right. right. lia. }
  destruct ((sp <=? t + lenN d) && negb awf) eqn:Hcase.
  { apply (Fin (mk_pst raw' (pcur s) (prem s))); auto. apply Hfull. lia. }
  unfold ps_cc in HF'. cbn [praw pcur prem] in HF'.
  destruct (N.ltb_spec (bufsz c) (prem s + (t + lenN d))); [lia|].
  rewrite (peek_ok raw' 0 (p ++ d) (prem s + (t + lenN d)) (pcur s)) in HF'; [|lia|exact Hpd|lia|exact Hco2].
  cbn [bind] in HF'. pose proof HS as HS'. rewrite ps_eq in HS.
  destruct (mism (p ++ d)) eqn:Hm2.
  { cbn [N.eqb orb] in HF'. apply (Fin (mk_pst raw' (npos c) (prem s))); try reflexivity; try assumption.
    - left. reflexivity.
    - inversion HS; auto. }
  destruct (N.leb_spec (lenN (p ++ d)) (min_len a)) as [Hl|Hl].
  { inversion HS; subst fs r e. destruct (N.eqb_spec (bufsz c) 0); [lia|]. cbn [orb] in HF'.
    destruct (N.leb_spec sp (t + lenN d)); [lia|].
    inversion HF'; subst st' o. left. repeat split; try reflexivity; cbn [I praw pcur prem]; try assumption; try lia. }
  destruct (findN (suffix a) (dropN pl (p ++ d))) as [i|] eqn:EF.
  { cbn [N.eqb orb] in HF'. apply (Fin (mk_pst raw' (pl + i + sl) (prem s))); try reflexivity; try assumption.
    - right. right. exists i. repeat split; assumption.
    - destruct (ps (dropN (pl + i + sl) (p ++ d))) as [[? ?] ?]. inversion HS. left. discriminate. }
  inversion HS; subst fs r e.
  destruct (N.leb_spec (bufsz c) (lenN (p ++ d))) as [Hge|Hge].
  { cbn [N.eqb orb] in HF'. apply (Fin (mk_pst raw' 0 (prem s))); try reflexivity; try assumption.
    - right. left. repeat split; [lia|assumption].
    - right. right. lia. }
  destruct (N.eqb_spec (bufsz c) 0); [lia|]. cbn [orb] in HF'.
  destruct (N.leb_spec sp (t + lenN d)); [lia|].
  inversion HF'; subst st' o. left. repeat split; try reflexivity; cbn [I praw pcur prem]; try assumption; try lia.
  unfold curp. destruct (N.leb_spec pl (lenN (p ++ d))); lia.
Qed.

Lemma feed_ok awf st p d st' o fs r : I st p -> feed awf U st d = Some (st', o) -> ps (p ++ d) = (fs, r, false) ->
  lenN r < bufsz c -> all_msgs o = adelivers fs /\ any_err o = false /\ I st' r.
Proof.
  intros HI HF HS HP. destruct (feed_gen _ _ _ _ _ _ _ _ _ HI HF HS) as [H|[H|H]].
  - tauto.
  - destruct H as (_ & [H|H] & _); [discriminate|lia].
  - destruct H as (_ & H & _). discriminate.
Qed.

Lemma I_none st p : I st p -> ps p = ([], p, false).
Proof. destruct st as [s sp t lim|h]; [|intros []]. cbn [I]. tauto. Qed.

Lemma affix_run awf mem bodies ds rest st o : lenN mem = bufsz c -> Forall (afits c a) bodies ->
  concat ds ++ rest = awire a bodies -> run awf U (start_read U (ps_init c mem)) ds = Some (st, o) ->
  all_msgs o = ashown c a (acomplete a bodies (lenN (concat ds))) /\ any_err o = false /\
  exists r, I st r /\ (Forall (fun b => b <> []) bodies -> rest = [] -> r = []).
Proof.
  intros L F E HR. destruct (ps_wire_prefix bodies (concat ds) rest F E) as (fs & r & Hr & Hd & Hl & Hend).
  destruct (run_ok2 awf U ps adelivers I (fun r => lenN r < bufsz c) adelivers_app eq_refl ps_app I_none (feed_ok awf)
     ds (start_read U (ps_init c mem)) [] st o fs r) as (H1 & H2 & H3); try assumption.
  { apply (reset_I (ps_init c mem)). exact L. }
  { intros ds1 ds2 Hds. subst ds. rewrite concat_app, <- app_assoc in E.
    destruct (ps_wire_prefix bodies (concat ds1) (concat ds2 ++ rest) F E) as (fs0 & r0 & Hr0 & _ & Hl0 & _). eauto. }
  rewrite H1, Hd. repeat split; auto. exists r. auto.
Qed.

Lemma affix_safe awf mem ds st o : lenN mem = bufsz c -> run awf U (start_read U (ps_init c mem)) ds = Some (st, o) ->
  st = Halted ZeroByteRead \/ exists s sp t lim, st = Reading s sp t lim /\ 0 < lim /\ t + lim <= sp.
Proof.
  intros L HR.
  assert (HK : st = Halted ZeroByteRead \/ exists p, I st p).
  { eapply (run_keep awf U (fun st => st = Halted ZeroByteRead \/ exists p, I st p)); [| |exact HR].
    - intros st0 d st' o' [H|[p HI]] HF; [subst st0; discriminate|].
      destruct (ps (p ++ d)) as [[fs r] e] eqn:HS.
      destruct (feed_gen _ _ _ _ _ _ _ _ _ HI HF HS) as [H|[H|H]]; [right; exists r|right; exists []|left]; tauto.
    - right. exists []. apply (reset_I (ps_init c mem)). exact L. }
  destruct HK as [HK|[p HK]]; [auto|right].
  destruct st as [s sp t lim|h]; [|destruct HK]. cbn [I] in HK. exists s, sp, t, lim. repeat split; lia.
Qed.

(** a block that completes no read stays pending *)
Lemma feed_silent awf st p d st' : I st p -> feed awf U st d = Some (st', []) -> I st' (p ++ d).
Proof.
  intros HI HF. destruct (ps (p ++ d)) as [[fs r] e] eqn:HS.
  assert (G : (exists q, I st' q) \/ st' = Halted ZeroByteRead).
  { destruct (feed_gen _ _ _ _ _ _ _ _ _ HI HF HS) as [H|[H|H]]; [left; exists r; tauto | left; exists []; tauto | right; tauto]. }
  clear HS fs r e. destruct st as [s sp t lim|h]; [|destruct HI]. cbn [I] in HI. destruct HI as (Lr & Hsp & Hlt & Hlim & Hp & Hps & Hcur).
  assert (CR : forall s2 n x, complete_read U s2 n = (x, []) -> exists b, x = Halted (Crash b)).
  { intros s2 n x H. unfold complete_read in H. destruct (u_parse U s2 n) as [[[? ?] ?]|b]; inversion H; eauto. }
  assert (NC : forall b, st' <> Halted (Crash b)).
  { intros b ->. destruct G as [[q []]|G]; discriminate. }
  unfold feed in HF. destruct ((lenN d =? 0) || (lim <? lenN d)) eqn:Hleg; [discriminate|].
  inversion HF as [HF']; clear HF. cbn [ps_unpacker u_write u_cc] in HF'. unfold ps_write in HF'.
  destruct (blit (praw s) (prem s + t) d) as [raw'|b] eqn:EB; cbn [bind] in HF'; [|inversion HF'; subst; destruct (NC b eq_refl)].
  pose proof (blit_take _ _ _ _ EB) as Htk. rewrite <- Hp in Htk.
  destruct ((sp <=? t + lenN d) && negb awf); [destruct (CR _ _ _ HF') as [b ->]; destruct (NC b eq_refl)|].
  unfold ps_cc in HF'. cbn [praw pcur prem] in HF'.
  destruct (bufsz c <? prem s + (t + lenN d)); [inversion HF'; subst; destruct (NC _ eq_refl)|].
  destruct (peek_msg c a raw' 0 (prem s + (t + lenN d)) (pcur s)) as [[cu m]|b]; cbn [bind] in HF'; [|inversion HF'; subst; destruct (NC _ eq_refl)].
  destruct ((m =? 0) || (sp <=? t + lenN d)); [destruct (CR _ _ _ HF') as [b ->]; destruct (NC b eq_refl)|].
  inversion HF' as [E]; subst st'. destruct G as [[q G]|G]; [|discriminate].
  assert (X : q = p ++ d) by (cbn [I praw pcur prem] in G; destruct G as (_ & _ & _ & _ & -> & _); rewrite N.add_assoc; exact Htk).
  rewrite <- X. exact G.
Qed.

Lemma run_silent awf : forall ds st p st', I st p -> run awf U st ds = Some (st', []) -> I st' (p ++ concat ds).
Proof.
  induction ds as [|d ds IH]; intros st p st' HI HR; cbn [run concat] in *.
  - inversion HR; subst. rewrite app_nil_r. exact HI.
  - destruct (feed awf U st d) as [[st1 o1]|] eqn:HF; [|discriminate]. destruct (run awf U st1 ds) as [[st2 o2]|] eqn:HR2; [|discriminate].
    inversion HR as [[E1 E2]]. apply app_eq_nil in E2. destruct E2; subst. rewrite app_assoc. eapply IH; [|exact HR2]. eapply feed_silent; eassumption.
Qed.

(** the suffix and one more byte behind any pending data end the read *)
Lemma affix_heartbeat awf st p ds x st' o : I st p -> concat ds = amsg a [] ++ x -> x <> [] -> run awf U st ds = Some (st', o) -> o <> [].
Proof.
  destruct HA' as (A1 & A2 & A3). intros HI E X HR ->. pose proof (I_none _ _ (run_silent _ _ _ _ _ HI HR)) as N. rewrite ps_eq in N.
  destruct (mism (p ++ concat ds)); [discriminate|]. rewrite E in N. unfold amsg in N. cbn [app] in N.
  assert (Lx : 0 < lenN x) by (destruct x; [congruence | rewrite lenN_cons; lia]).
  destruct (N.leb_spec (lenN (p ++ (prefix a ++ suffix a) ++ x)) (min_len a)) as [H|H]; [rewrite !lenN_app in H; lia|].
  replace (p ++ (prefix a ++ suffix a) ++ x) with ((p ++ prefix a) ++ suffix a ++ x) in N by (rewrite !app_assoc; reflexivity).
  rewrite dropN_app_le in N by (rewrite lenN_app; lia).
  destruct (findN_exists (suffix a) (dropN pl (p ++ prefix a)) x) as (j & J & _). rewrite J in N.
  destruct (ps (dropN (pl + j + sl) ((p ++ prefix a) ++ suffix a ++ x))) as [[? ?] ?]. discriminate.
Qed.

Lemma affix_heartbeat_after awf mem ds1 st1 o1 ds2 x st2 o2 : lenN mem = bufsz c -> run awf U (start_read U (ps_init c mem)) ds1 = Some (st1, o1) ->
  concat ds2 = amsg a [] ++ x -> x <> [] -> run awf U st1 ds2 = Some (st2, o2) -> o2 <> [].
Proof.
  intros L R1 E X R2.
  assert (HK : st1 = Halted ZeroByteRead \/ exists p, I st1 p).
  { eapply (run_keep awf U (fun st => st = Halted ZeroByteRead \/ exists p, I st p)); [| |exact R1].
    - intros st0 d st' o' [H|[p HI]] HF; [subst st0; discriminate|].
      destruct (ps (p ++ d)) as [[fs r] e] eqn:HS.
      destruct (feed_gen _ _ _ _ _ _ _ _ _ HI HF HS) as [H|[H|H]]; [right; exists r|right; exists []|left]; tauto.
    - right. exists []. apply (reset_I (ps_init c mem)). exact L. }
  destruct HK as [->|[p HK]]; [|exact (affix_heartbeat _ _ _ _ _ _ _ HK E X R2)].
  destruct ds2 as [|d ds2]; [|discriminate]. cbn in E. symmetry in E. apply app_eq_nil in E. tauto.
Qed.

(** a wrong prefix right at the beginning of a read sequence *)
Lemma affix_bad awf st p ds d st' o : I st [] -> p = concat ds -> lenN p < pl -> pl <= lenN (p ++ d) ->
  takeN pl (p ++ d) <> prefix a -> run awf U st (ds ++ [d]) = Some (st', o) ->
  all_msgs o = [] /\ any_err o = true.
Proof.
  destruct HA' as (A1 & A2 & A3). intros HI Hp Hl1 Hl2 Hneq HR.
  rewrite run_app in HR. destruct (run awf U st ds) as [[st1 o1]|] eqn:ER; [|discriminate].
  assert (Hshort : forall q, lenN q < pl -> ps q = ([], q, false)).
  { intros q Hq. rewrite ps_eq. unfold mism. destruct (N.leb_spec pl (lenN q)); [lia|]. cbn [andb].
    destruct (N.leb_spec (lenN q) (min_len a)); [reflexivity|lia]. }
  destruct (run_ok2 awf U ps adelivers I (fun r => lenN r < bufsz c) adelivers_app eq_refl ps_app I_none (feed_ok awf)
     ds st [] st1 o1 [] p HI ER) as (H1 & H2 & H3).
  { intros ds1 ds2 Hds. subst ds. cbn [app]. rewrite concat_app in Hp. exists [], (concat ds1).
    assert (lenN (concat ds1) < pl) by (subst p; rewrite lenN_app in Hl1; lia). split; [apply Hshort; assumption|lia]. }
  { cbn [app]. rewrite <- Hp. apply Hshort. assumption. }
  cbn [run] in HR. destruct (feed awf U st1 d) as [[st2 o2]|] eqn:EF; [|discriminate]. inversion HR; subst st' o.
  rewrite app_nil_r.
  assert (HS : ps (p ++ d) = ([], p ++ d, true)).
  { rewrite ps_eq. unfold mism. destruct (N.leb_spec pl (lenN (p ++ d))); [|lia]. cbn [andb].
    destruct (bytes_eqb (prefix a) (takeN pl (p ++ d))) eqn:Eb; [apply bytes_eqb_eq in Eb; congruence|]. reflexivity. }
  destruct (feed_gen _ _ _ _ _ _ _ _ _ H3 EF HS) as [H|[H|H]].
  - destruct H as (H & _); discriminate.
  - destruct H as (_ & _ & H4 & H5 & _). rewrite all_msgs_app, any_err_app, H1, H2, H4, H5. auto.
  - destruct H as (H & _); congruence.
Qed.

Lemma affix_break awf mem ds st o : lenN mem = bufsz c -> run awf U (start_read U (ps_init c mem)) ds = Some (st, o) ->
  st = Halted ZeroByteRead \/
  exists s mem', read_error U st = Ok (Some s, []) /\ ps_reset c s = ps_init c mem' /\ lenN mem' = bufsz c.
Proof.
  intros L HR.
  assert (HK : st = Halted ZeroByteRead \/ exists p, I st p).
  { eapply (run_keep awf U (fun st => st = Halted ZeroByteRead \/ exists p, I st p)); [| |exact HR].
    - intros st0 d st' o' [H|[p HI]] HF; [subst st0; discriminate|].
      destruct (ps (p ++ d)) as [[fs r] e] eqn:HS.
      destruct (feed_gen _ _ _ _ _ _ _ _ _ HI HF HS) as [H|[H|H]]; [right; exists r|right; exists []|left]; tauto.
    - right. exists []. apply (reset_I (ps_init c mem)). exact L. }
  destruct HK as [HK|[p HK]]; [auto|right].
  destruct st as [s sp t lim|h]; [|destruct HK]. cbn [I] in HK.
  destruct HK as (Lr & Hsp & Hlt & Hlim & Hp & Hps & Hcur).
  unfold read_error. destruct (N.eqb_spec t 0) as [Ht|Ht].
  { exists s, (praw s). repeat split; auto. }
  cbn [ps_unpacker u_parse u_reset]. unfold ps_parse.
  destruct (N.ltb_spec (bufsz c) (prem s + t)); [lia|].
  destruct (ps_none_curok _ Hps) as [Hco _].
  destruct (loop_ok (praw s) p 0 (prem s + t) (pcur s) (N.to_nat (prem s + t + 1)) [] p false) as (cu' & EQ & H1 & H2 & H3 & H4);
    try assumption; try lia.
  { rewrite Hcur. assumption. }
  rewrite EQ. cbn [bind]. rewrite N.add_0_l. destruct H2 as [H2 _]. rewrite H2 by reflexivity.
  replace (prem s + t - (prem s + t)) with 0 by lia. cbn [N.eqb].
  eexists. exists (praw s). split; [reflexivity|]. split; [reflexivity|]. assumption.
Qed.

(** a wrong prefix behind complete messages, at the beginning of a read *)
Lemma affix_bad_after awf mem bodies ds1 ds d st o : lenN mem = bufsz c -> Forall (afits c a) bodies ->
  Forall (fun b => b <> []) bodies -> concat ds1 = awire a bodies ->
  lenN (concat ds) < pl -> pl <= lenN (concat ds ++ d) -> takeN pl (concat ds ++ d) <> prefix a ->
  run awf U (start_read U (ps_init c mem)) (ds1 ++ ds ++ [d]) = Some (st, o) ->
  all_msgs o = ashown c a bodies /\ any_err o = true.
Proof.
  intros L F FN E1 Hl1 Hl2 Hneq HR. rewrite run_app in HR.
  destruct (run awf U (start_read U (ps_init c mem)) ds1) as [[st1 o1]|] eqn:R1; [|discriminate].
  destruct (run awf U st1 (ds ++ [d])) as [[st2 o2]|] eqn:R2; [|discriminate]. inversion HR; subst st o.
  assert (E1' : concat ds1 ++ [] = awire a bodies) by (rewrite app_nil_r; exact E1).
  destruct (affix_run awf mem bodies ds1 [] st1 o1 L F E1' R1) as (M1 & X1 & r & HI & Hr).
  specialize (Hr FN eq_refl). subst r.
  destruct (affix_bad awf st1 (concat ds) ds d st2 o2 HI eq_refl Hl1 Hl2 Hneq R2) as [M2 X2].
  rewrite all_msgs_app, any_err_app, M1, X1, M2, X2, app_nil_r, E1. split; [|reflexivity]. f_equal.
  clear. induction bodies as [|b bs IH]; [reflexivity|]. cbn [acomplete].
  change (awire a (b :: bs)) with (amsg a b ++ awire a bs). rewrite lenN_app.
  destruct (N.leb_spec (lenN (amsg a b)) (lenN (amsg a b) + lenN (awire a bs))); [|lia]. f_equal.
  replace (lenN (amsg a b) + lenN (awire a bs) - lenN (amsg a b)) with (lenN (awire a bs)) by lia. exact IH.
Qed.

Lemma acomplete_all bs : acomplete a bs (lenN (awire a bs)) = bs.
Proof.
  induction bs as [|b bs IH]; [reflexivity|]. cbn [acomplete].
  change (awire a (b :: bs)) with (amsg a b ++ awire a bs). rewrite lenN_app.
  destruct (N.leb_spec (lenN (amsg a b)) (lenN (amsg a b) + lenN (awire a bs))); [|lia]. f_equal.
  replace (lenN (amsg a b) + lenN (awire a bs) - lenN (amsg a b)) with (lenN (awire a bs)) by lia. exact IH.
Qed.
End Aff.

(** a way to check admissible bodies by computation *)
Lemma afits_check c a b : lenN (amsg a b) <=? bufsz c = true -> findN (suffix a) (b ++ suffix a) = Some (lenN b) -> afits c a b.
Proof.
  intros H1 H2. split; [lia|]. intros x y E. destruct (findN_exists (suffix a) x y) as (j & Ej & Hj).
  rewrite <- E, H2 in Ej. assert (j = lenN b) by congruence. apply (f_equal lenN) in E. rewrite !lenN_app in E.
  apply lenN_0. lia.
Qed.
