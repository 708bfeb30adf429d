(** ext::unpacker refines the greedy frame reader. *)
From Coq Require Import Arith List NArith Bool Lia ZifyBool ZifyNat ZifyN.
From Verif Require Import M_Bytes M_Config M_Rx M_Unpacker S_Frame S_Rx L_Bytes L_Frame L_Rx L_FrameRx.
Import ListNotations.
Open Scope N_scope.

Section Unp.
Context (c : cfg) (HC : cfg_ok c = true).

(** the value cur_msg_len has while bytes [p] are pending *)
Definition cur_for (p : list byte) : N := if lenN p <? head_len c then npos c else hd_val c p.

Lemma hd_val_bound p : head_len c <= lenN p -> hd_val c p < head_range c.
Proof.
  intros. unfold hd_val, head_range. pose proof (be_decode_bound (takeN (head_len c) p)) as B.
  rewrite lenN_takeN in B. replace (N.min (head_len c) (lenN p)) with (head_len c) in B by lia. exact B.
Qed.

Lemma not_bad_not_npos p : bad_len c (hd_val c p) = false -> hd_val c p <> npos c.
Proof. destruct (cfg_ok_facts c HC). unfold bad_len. lia. Qed.

Definition sub (blk : list byte) (q : N * N) : list byte := takeN (snd q) (dropN (fst q) blk).

(** positions found by the inner loop *)
Definition pos_end (off : N) (ps : list (N * N)) : N :=
  match ps with [] => off | _ => fst (last ps (0, 0)) + snd (last ps (0, 0)) end.

Lemma read_head_ok blk off p rem : p = takeN rem (dropN off blk) -> off + rem <= lenN blk -> head_len c <= rem ->
  read_head c blk off = Ok (hd_val c p).
Proof.
  intros -> L H. unfold read_head. rewrite fetch_ok by lia. cbn [bind]. unfold hd_val.
  rewrite takeN_takeN_le by lia. reflexivity.
Qed.

Lemma parse_loop_ok blk : forall p off rem cu fuel ms r e,
  p = takeN rem (dropN off blk) -> off + rem <= lenN blk ->
  (cu = npos c \/ (head_len c <= rem /\ cu = hd_val c p)) ->
  (2 * N.to_nat rem + (if N.eqb cu (npos c) then 3 else 2) < fuel)%nat ->
  lp c p = (ms, r, e) ->
  exists ps off' cu' rem', parse_loop fuel c blk off cu rem = Ok (ps, off', cu', rem', negb e) /\
    map (sub blk) ps = ms /\ off' = off + rem - rem' /\ off <= off' /\ off' <= lenN blk /\ rem' = lenN r /\ rem' <= rem /\ 
    pos_end off ps = off' /\ (ps = [] <-> off' = off) /\
    Forall (fun q => fst q + snd q <= lenN blk) ps /\
    (e = false -> cu' = cur_for r).
Proof.
  destruct (cfg_ok_facts c HC) as (C1 & C2 & C3 & C4).
  induction p as [p IH] using list_len_ind.
  intros off rem cu fuel ms r e Hp Hb Hcu Hf.
  assert (Lp : lenN p = rem). { subst p. rewrite lenN_takeN, lenN_dropN. lia. }
  (* reduce to the case cu <> npos, or finish *)
  assert (Step : forall fuel cu, (2 * N.to_nat rem + 2 < fuel)%nat -> head_len c <= rem -> cu = hd_val c p -> cu <> npos c ->
    lp c p = (ms, r, e) ->
  exists ps off' cu' rem', parse_loop fuel c blk off cu rem = Ok (ps, off', cu', rem', negb e) /\
    map (sub blk) ps = ms /\ off' = off + rem - rem' /\ off <= off' /\ off' <= lenN blk /\ rem' = lenN r /\ rem' <= rem /\ 
    pos_end off ps = off' /\ (ps = [] <-> off' = off) /\
    Forall (fun q => fst q + snd q <= lenN blk) ps /\
    (e = false -> cu' = cur_for r)).
  { clear cu Hcu fuel Hf. intros fuel cu Hf Hh Hcu Hnp Hlp.
    destruct fuel as [|fuel]; [lia|]. cbn [parse_loop].
    destruct (N.eqb_spec cu (npos c)); [contradiction|]. cbn [negb].
    rewrite lp_eq in Hlp. destruct (N.ltb_spec (lenN p) (head_len c)); [lia|].
    rewrite <- Hcu in Hlp. fold (bad_len c cu). destruct (bad_len c cu) eqn:Hbad.
    { inversion Hlp; subst ms r e. exists [], off, cu, rem.
      repeat split; try congruence; try lia. constructor. }
    destruct (N.ltb_spec (lenN p) cu) as [Hlt|Hge].
    { inversion Hlp; subst ms r e. destruct (N.leb_spec cu rem); [lia|].
      exists [], off, cu, rem. repeat split; try congruence; try lia. 1: constructor.
      intros _. unfold cur_for. destruct (N.ltb_spec (lenN p) (head_len c)); [lia|assumption]. }
    destruct (N.leb_spec cu rem); [|lia].
    destruct (lp c (dropN cu p)) as [[ms1 r1] e1] eqn:E1. inversion Hlp; subst ms r e.
    assert (Hcl : 2 <= cu) by (unfold bad_len in Hbad; destruct (head_len_cases c); lia).
    destruct (IH (dropN cu p)) with (off := off + cu) (rem := rem - cu) (cu := npos c) (fuel := fuel) (ms := ms1) (r := r1) (e := e1)
      as (ps & off' & cu' & rem' & EQ & Hm & Ho & Ho1 & Ho2 & Hr & Hr2 & Hpe & Hnil & HF & Hc); try assumption.
    { rewrite lenN_dropN. lia. }
    { subst p. rewrite dropN_takeN, dropN_dropN. reflexivity. }
    { lia. }
    { left. reflexivity. }
    { rewrite N.eqb_refl. lia. }
    rewrite EQ. cbn [bind]. exists ((off, cu) :: ps), off', cu', rem'.
    repeat split; try assumption; try lia.
    - cbn [map]. unfold sub at 1. cbn [fst snd]. f_equal; [|assumption].
      subst p. rewrite takeN_takeN_le by lia. reflexivity.
    - destruct ps as [|q ps]; cbn [pos_end].
      + cbn [last fst snd]. cbn [pos_end] in Hpe. exact Hpe.
      + cbn [pos_end] in Hpe. exact Hpe.
    - intros Hx. discriminate.
    - constructor; [cbn [fst snd]; lia|assumption]. }
  intros Hlp.
  destruct Hcu as [->|[Hh Hcu]].
  - destruct fuel as [|fuel]; [lia|]. cbn [parse_loop]. rewrite N.eqb_refl in *. cbn [negb].
    destruct (N.leb_spec (head_len c) rem) as [Hh|Hh].
    + rewrite (read_head_ok blk off p rem) by assumption. cbn [bind].
      destruct (huge c && (hd_val c p =? npos c)) eqn:Hx.
      * apply andb_prop in Hx as [Hx1 Hx2]. apply N.eqb_eq in Hx2.
        rewrite lp_eq in Hlp. destruct (N.ltb_spec (lenN p) (head_len c)); [lia|].
        assert (Hbad : bad_len c (hd_val c p) = true) by (unfold bad_len; lia).
        rewrite Hbad in Hlp. inversion Hlp; subst ms r e. exists [], off, (hd_val c p), rem.
        repeat split; try congruence; try lia. constructor.
      * apply Step; try assumption; try lia; try reflexivity.
        destruct (huge c); [cbn in Hx; lia|].
        pose proof (hd_val_bound p). rewrite Lp in *. specialize (C4 eq_refl). lia.
    + rewrite lp_eq in Hlp. destruct (N.ltb_spec (lenN p) (head_len c)); [|lia]. inversion Hlp; subst ms r e.
      exists [], off, (npos c), rem. repeat split; try congruence; try lia. 1: constructor.
      intros _. unfold cur_for. destruct (N.ltb_spec (lenN p) (head_len c)); [reflexivity|lia].
  - destruct (N.eqb_spec cu (npos c)) as [He|He].
    + subst cu. destruct fuel as [|fuel]; [lia|]. cbn [parse_loop]. rewrite He, N.eqb_refl. cbn [negb].
      destruct (N.leb_spec (head_len c) rem); [|lia].
      rewrite (read_head_ok blk off p rem) by assumption. cbn [bind]. rewrite He, N.eqb_refl.
      assert (Hbad : bad_len c (hd_val c p) = true) by (unfold bad_len; lia).
      rewrite lp_eq in Hlp. destruct (N.ltb_spec (lenN p) (head_len c)); [lia|]. rewrite Hbad in Hlp.
      inversion Hlp; subst ms r e.
      destruct (huge c) eqn:Hx; [|specialize (C4 eq_refl); pose proof (hd_val_bound p); lia]. cbn [andb].
      exists [], off, (npos c), rem. repeat split; try congruence; try lia. constructor.
    + apply Step; try assumption.
Qed.

Lemma build_msgs_ok blk : forall ps, Forall (fun q => fst q + snd q <= lenN blk) ps ->
  build_msgs c blk ps = Ok (delivers c (map (sub blk) ps)).
Proof.
  induction ps as [|[o n] ps IH]; intros HF; [reflexivity|].
  inversion HF; subst. cbn [fst snd] in *. cbn [build_msgs map]. unfold build_msg.
  unfold delivers. cbn [concat map]. fold (delivers c (map (sub blk) ps)).
  unfold deliver, sub. cbn [fst snd]. rewrite lenN_takeN, lenN_dropN.
  replace (N.min n (lenN blk - o)) with n by lia.
  destruct (N.ltb_spec (head_len c) n).
  - destruct (stripped c).
    + rewrite fetch_ok by lia. cbn [bind]. rewrite IH by assumption. cbn [bind].
      rewrite dropN_takeN, dropN_dropN. reflexivity.
    + rewrite fetch_ok by lia. cbn [bind]. rewrite IH by assumption. reflexivity.
  - cbn [bind]. rewrite IH by assumption. reflexivity.
Qed.

(** the invariant of a reading receiver with pending (not yet delivered) bytes [p] *)
Definition I (st : rxst ust) (p : list byte) : Prop :=
  match st with
  | Halted _ => False
  | Reading s sp t lim =>
    lenN (raw s) = bufsz c /\ sp = bufsz c - remain s /\ remain s + t < bufsz c /\
    p = takeN (remain s + t) (raw s) /\ lp c p = ([], p, false) /\ cur s = cur_for p /\ lim = sp - t /\ remain s <= bufsz c
  end.

Lemma start_ok s p : lenN (raw s) = bufsz c -> remain s = lenN p -> p = takeN (remain s) (raw s) ->
  lp c p = ([], p, false) -> cur s = cur_for p -> I (start_read (unpacker c) s) p.
Proof.
  destruct (cfg_ok_facts c HC) as (C1 & C2 & C3 & C4).
  intros Lr Lm Hp Hlp Hcur. pose proof (lp_none _ _ Hlp) as Hn.
  assert (Hlt : remain s < bufsz c).
  { rewrite Lm. destruct Hn as [Hn|(Hn1 & Hn2 & Hn3)]; [lia|]. unfold bad_len in Hn2. lia. }
  unfold start_read. cbn [unpacker u_space u_cc].
  unfold unp_space. destruct (N.ltb_spec (remain s) (bufsz c)); [|lia].
  destruct (N.eqb_spec (lenN (raw s) - remain s) 0); [lia|].
  unfold unp_cc. rewrite N.add_0_r. destruct (N.ltb_spec (bufsz c) (remain s)); [lia|].
  assert (Hx : (cur s =? npos c) && (head_len c <=? remain s) = false).
  { rewrite Hcur. unfold cur_for. rewrite <- Lm in *. destruct (N.ltb_spec (remain s) (head_len c)).
    - lia.
    - destruct Hn as [Hn|(Hn1 & Hn2 & Hn3)]; [lia|]. pose proof (not_bad_not_npos _ Hn2). lia. }
  rewrite Hx.
  assert (Hy : (cur s <=? remain s) = false).
  { rewrite Hcur. unfold cur_for. rewrite <- Lm in *. destruct (N.ltb_spec (remain s) (head_len c)); lia. }
  rewrite Hy. destruct (N.eqb_spec (bufsz c) 0); [lia|].
  cbn [I]. repeat split; try assumption; try lia. rewrite N.add_0_r. assumption.
Qed.

Lemma init_I mem : lenN mem = bufsz c -> I (start_read (unpacker c) (unp_init c mem)) [].
Proof.
  intros. assert (Z : 0 <? head_len c = true) by (destruct (head_len_cases c); lia).
  apply start_ok; cbn [unp_init raw remain cur]; auto.
  - rewrite lp_eq, lenN_nil, Z. reflexivity.
  - unfold cur_for. rewrite lenN_nil, Z. reflexivity.
Qed.

(** parsing [q], the pending bytes, at the end of a read *)
Lemma complete_ok s t q fs r e : lenN (raw s) = bufsz c -> remain s + t <= bufsz c -> 0 < t ->
  q = takeN (remain s + t) (raw s) ->
  (cur s = npos c \/ (head_len c <= remain s + t /\ cur s = hd_val c q)) ->
  lp c q = (fs, r, e) -> (e = true \/ fs <> []) ->
  exists st' , complete_read (unpacker c) s t = (st', [mk_rxout (delivers c fs) e]) /\ I st' (if e then [] else r).
Proof.
  intros Lr Hb Ht Hq Hcu Hlp Hne. unfold complete_read. cbn [unpacker u_parse u_reset].
  unfold unp_parse. destruct (N.ltb_spec (bufsz c) (remain s + t)); [lia|].
  destruct (parse_loop_ok (raw s) q 0 (remain s + t) (cur s) (N.to_nat (2 * (remain s + t) + 4)) fs r e)
    as (ps & off' & cu' & rem' & EQ & Hm & Ho & Ho1 & Ho2 & Hr & Hr2 & Hpe & Hnil & HF & Hc); try assumption; try lia.
  { destruct (cur s =? npos c); lia. }
  rewrite EQ. cbn [bind]. rewrite build_msgs_ok by assumption. rewrite Hm. cbn [bind].
  assert (HML : exists raw', move_left (raw s) rem' ps = Ok raw' /\ lenN raw' = bufsz c /\
                 (e = false -> takeN rem' raw' = r)).
  { unfold move_left. destruct ps as [|p0 ps0].
    - rewrite andb_false_r. exists (raw s). repeat split; try assumption.
      intros He. destruct Hne as [Hne|Hne]; [congruence|]. cbn in Hm. congruence.
    - cbn [negb]. rewrite andb_true_r.
      change (fst (last (p0 :: ps0) (0, 0)) + snd (last (p0 :: ps0) (0, 0))) with (pos_end 0 (p0 :: ps0)).
      rewrite Hpe.
      assert (Hr' : r = takeN rem' (dropN off' (raw s))).
      { pose proof (lp_concat _ _ _ _ _ Hlp) as HC1. apply (f_equal (dropN off')) in HC1.
        rewrite app_drop_eq in HC1.
        - rewrite HC1, Hq, dropN_takeN. f_equal. lia.
        - assert (lenN (concat fs ++ r) = lenN q) by (f_equal; eapply lp_concat; exact Hlp).
          rewrite lenN_app in H0. rewrite Hq, lenN_takeN in H0. lia. }
      destruct (N.ltb_spec 0 rem') as [Hz|Hz].
      + rewrite fetch_ok by lia. cbn [bind].
        assert (Lf : lenN (takeN rem' (dropN off' (raw s))) = rem') by (rewrite lenN_takeN, lenN_dropN; lia).
        destruct (blit (raw s) 0 (takeN rem' (dropN off' (raw s)))) as [r1|b] eqn:EB.
        * exists r1. repeat split; [rewrite (blit_len _ _ _ _ EB); assumption|].
          intros _. apply blit_take in EB. rewrite Lf, N.add_0_l in EB. rewrite EB. cbn. symmetry. assumption.
        * rewrite blit_ok in EB by (rewrite Lf; lia). discriminate.
      + exists (raw s). repeat split; try assumption. intros _. replace rem' with 0 by lia.
        symmetry. apply lenN_0. lia. }
  destruct HML as (raw' & -> & Lraw & Htk). cbn [bind].
  assert (Hoff : off' =? 0 = negb (negb (match ps with [] => true | _ => false end))).
  { destruct ps; cbn [negb]; [destruct Hnil as [Hnil _]; specialize (Hnil eq_refl); lia|].
    destruct Hnil as [_ Hnil]. destruct (N.eqb_spec off' 0); [specialize (Hnil e0); discriminate|reflexivity]. }
  rewrite Hoff.
  assert (Hok : negb e && negb (negb (negb (match ps with [] => true | _ => false end))) = negb e).
  { destruct e; [reflexivity|]. destruct Hne as [Hne|Hne]; [discriminate|].
    destruct ps; [cbn in Hm; congruence|reflexivity]. }
  rewrite Hok. rewrite negb_involutive. eexists. split; [reflexivity|].
  destruct e; cbn [negb].
  - assert (Z : 0 <? head_len c = true) by (destruct (head_len_cases c); lia).
    apply start_ok; cbn [unp_reset raw remain cur]; try assumption; try reflexivity.
    + rewrite lp_eq, lenN_nil, Z. reflexivity.
    + unfold cur_for. rewrite lenN_nil, Z. reflexivity.
  - specialize (Htk eq_refl). specialize (Hc eq_refl).
    apply start_ok; cbn [raw remain cur]; try assumption; try congruence. eapply lp_rest; exact Hlp.
Qed.

Lemma feed_ok awf st p d st' o ms r e : I st p -> feed awf (unpacker c) st d = Some (st', o) ->
  lpsplit c (p ++ d) = (ms, r, e) -> all_msgs o = ms /\ any_err o = e /\ I st' (if e then [] else r).
Proof.
  destruct (cfg_ok_facts c HC) as (C1 & C2 & C3 & C4).
  destruct st as [s sp t lim|h]; [|intros []]. cbn [I].
  intros (Lr & Hsp & Hlt & Hp & Hlp & Hcur & Hlim & Hrem) HF HS.
  unfold feed in HF. destruct ((lenN d =? 0) || (lim <? lenN d)) eqn:Hleg; [discriminate|].
  apply orb_false_elim in Hleg as [Hd0 Hd1]. inversion HF as [HF']; clear HF.
  cbn [unpacker u_write] in HF'. unfold unp_write in HF'.
  destruct (blit (raw s) (remain s + t) d) as [raw'|b] eqn:EB; cbn [bind] in HF';
    [|rewrite blit_ok in EB by lia; discriminate].
  pose proof (blit_len _ _ _ _ EB) as Lr'. pose proof (blit_take _ _ _ _ EB) as Htk.
  rewrite <- Hp in Htk.
  set (s1 := mk_ust raw' (cur s) (remain s)) in *.
  unfold lpsplit in HS. destruct (lp c (p ++ d)) as [[fs r0] e0] eqn:Elp. inversion HS; subst ms r0 e0; clear HS.
  assert (Lpd : lenN (p ++ d) = remain s + t + lenN d).
  { rewrite lenN_app. rewrite Hp, lenN_takeN. lia. }
  assert (Hpd : p ++ d = takeN (remain s + (t + lenN d)) raw') by (rewrite N.add_assoc; congruence).
  (* finishing the read with cur_msg_len either unknown or right *)
  assert (Fin : forall s2, raw s2 = raw' -> remain s2 = remain s ->
     (cur s2 = npos c \/ (head_len c <= remain s2 + (t + lenN d) /\ cur s2 = hd_val c (p ++ d))) ->
     (e = true \/ fs <> []) -> complete_read (unpacker c) s2 (t + lenN d) = (st', o) ->
     all_msgs o = delivers c fs /\ any_err o = e /\ I st' (if e then [] else r)).
  { intros s2 Hr2 Hm2 Hc2 Hne HCR.
    destruct (complete_ok s2 (t + lenN d) (p ++ d) fs r e) as (st1 & E1 & HI1); try assumption; try lia.
    { congruence. } { rewrite Hm2, Hr2. assumption. }
    rewrite E1 in HCR. inversion HCR; subst. unfold all_msgs, any_err. cbn. rewrite app_nil_r, orb_false_r. auto. }
  assert (Hcs : cur s = npos c \/ (head_len c <= remain s + (t + lenN d) /\ cur s = hd_val c (p ++ d))).
  { rewrite Hcur. unfold cur_for. destruct (N.ltb_spec (lenN p) (head_len c)); [left; reflexivity|].
    right. rewrite lenN_app in Lpd. split; [lia|]. rewrite hd_val_app by lia. reflexivity. }
  (* a full buffer always contains a frame or a bad header *)
  assert (Hfull : bufsz c <= remain s + (t + lenN d) -> e = true \/ fs <> []).
  { intros Hfull. rewrite lp_eq in Elp. destruct (N.ltb_spec (lenN (p ++ d)) (head_len c)); [lia|].
    destruct (bad_len c (hd_val c (p ++ d))) eqn:Hb; [inversion Elp; auto|].
    destruct (N.ltb_spec (lenN (p ++ d)) (hd_val c (p ++ d))); [unfold bad_len in Hb; lia|].
    destruct (lp c (dropN (hd_val c (p ++ d)) (p ++ d))) as [[? ?] ?]. inversion Elp. right. discriminate. }
  destruct ((sp <=? t + lenN d) && negb awf) eqn:Hcase.
  { apply (Fin s1); auto. apply Hfull. lia. }
  (* completion condition *)
  destruct (unp_cc c s1 (t + lenN d)) as [[s2 m]|b] eqn:ECC.
  2:{ exfalso. unfold unp_cc in ECC. cbn [raw remain cur s1] in ECC.
      destruct (N.ltb_spec (bufsz c) (remain s + (t + lenN d))); [lia|].
      destruct ((cur s =? npos c) && (head_len c <=? remain s + (t + lenN d))) eqn:Hx; [|discriminate].
      rewrite (read_head_ok raw' 0 (p ++ d) (remain s + (t + lenN d))) in ECC; [cbn [bind] in ECC|assumption|lia|lia].
      destruct ((bufsz c <? hd_val c (p ++ d)) || (hd_val c (p ++ d) <? head_len c)); discriminate. }
  assert (HM : raw s2 = raw' /\ remain s2 = remain s /\
    (cur s2 = cur_for (p ++ d)) /\ (m = 0 /\ (e = true \/ fs <> []) \/ m = bufsz c /\ e = false /\ fs = [])).
  { unfold unp_cc in ECC. cbn [raw remain cur s1] in ECC.
    destruct (N.ltb_spec (bufsz c) (remain s + (t + lenN d))); [lia|].
    destruct ((cur s =? npos c) && (head_len c <=? remain s + (t + lenN d))) eqn:Hx.
    - rewrite (read_head_ok raw' 0 (p ++ d) (remain s + (t + lenN d))) in ECC; [cbn [bind] in ECC|assumption|lia|lia].
      fold (bad_len c (hd_val c (p ++ d))) in ECC.
      rewrite lp_eq in Elp. destruct (N.ltb_spec (lenN (p ++ d)) (head_len c)); [lia|].
      assert (Hcf : cur_for (p ++ d) = hd_val c (p ++ d)).
      { unfold cur_for. destruct (N.ltb_spec (lenN (p ++ d)) (head_len c)); [lia|reflexivity]. }
      destruct (bad_len c (hd_val c (p ++ d))) eqn:Hb.
      + inversion ECC; subst s2 m. inversion Elp; subst fs r e. cbn [raw remain cur]. repeat split; auto.
      + inversion ECC; subst s2 m. cbn [raw remain cur].
        repeat split; auto.
        destruct (N.ltb_spec (lenN (p ++ d)) (hd_val c (p ++ d))).
        * inversion Elp; subst fs r e. right. destruct (N.leb_spec (hd_val c (p ++ d)) (remain s + (t + lenN d))); [lia|auto].
        * left. destruct (N.leb_spec (hd_val c (p ++ d)) (remain s + (t + lenN d))); [|lia]. split; [reflexivity|].
          right. destruct (lp c (dropN (hd_val c (p ++ d)) (p ++ d))) as [[? ?] ?]. inversion Elp. discriminate.
    - inversion ECC; subst s2 m; clear ECC. cbn [raw remain cur].
      rewrite lp_eq in Elp.
      unfold cur_for in Hcur |- *. destruct (N.ltb_spec (lenN (p ++ d)) (head_len c)) as [Hs|Hs].
      + inversion Elp; subst fs r e. rewrite lenN_app in Hs. destruct (N.ltb_spec (lenN p) (head_len c)); [|lia].
        repeat split; auto. right. rewrite Hcur. destruct (N.leb_spec (npos c) (remain s + (t + lenN d))); [lia|auto].
      + destruct (N.ltb_spec (lenN p) (head_len c)) as [Hs2|Hs2]; [exfalso; lia|].
        rewrite <- (hd_val_app c p d) in Hcur by assumption.
        repeat split; auto.
        pose proof (lp_none _ _ Hlp) as [Hn|(Hn1 & Hn2 & Hn3)]; [lia|].
        rewrite <- (hd_val_app c p d) in Hn2 by assumption. rewrite Hn2 in Elp. rewrite <- Hcur in Elp.
        destruct (N.ltb_spec (lenN (p ++ d)) (cur s)).
        * inversion Elp; subst fs r e. right. destruct (N.leb_spec (cur s) (remain s + (t + lenN d))); [lia|auto].
        * left. destruct (N.leb_spec (cur s) (remain s + (t + lenN d))); [|lia]. split; [reflexivity|].
          right. destruct (lp c (dropN (cur s) (p ++ d))) as [[? ?] ?]. inversion Elp. discriminate. }
  destruct HM as (M1 & M2 & M3 & M4).
  assert (Hcs2 : cur s2 = npos c \/ (head_len c <= remain s2 + (t + lenN d) /\ cur s2 = hd_val c (p ++ d))).
  { rewrite M3, M2. unfold cur_for. destruct (N.ltb_spec (lenN (p ++ d)) (head_len c)); [auto|right; split; [lia|reflexivity]]. }
  destruct ((m =? 0) || (sp <=? t + lenN d)) eqn:Hm.
  { apply (Fin s2); auto. destruct M4 as [M4|M4]; [tauto|]. apply Hfull. lia. }
  destruct M4 as [M4|(M4 & He & Hfs)]; [lia|]. subst e fs m.
  inversion HF'; subst st' o. split; [reflexivity|]. split; [reflexivity|]. cbn [I].
  assert (r = p ++ d).
  { pose proof (lp_concat _ _ _ _ _ Elp) as Hcc. cbn in Hcc. assumption. }
  subst r. rewrite M1, M2.
  assert (remain s + (t + lenN d) < bufsz c) by lia.
  repeat split; try assumption; try lia.
Qed.

Lemma I_none st p : I st p -> lpsplit c p = ([], p, false).
Proof.
  destruct st as [s sp t lim|h]; [|intros []]. cbn [I]. intros (_ & _ & _ & _ & Hlp & _).
  unfold lpsplit. rewrite Hlp. reflexivity.
Qed.

Lemma I_reading st p : I st p -> exists s sp t lim, st = Reading s sp t lim /\
  0 < lim /\ t + lim <= sp.
Proof.
  destruct st as [s sp t lim|h]; [|intros []]. cbn [I]. intros (H1 & H2 & H3 & _ & _ & _ & H4 & H5).
  exists s, sp, t, lim. repeat split; lia.
Qed.

(** the link breaks: the half-baked frame is dropped *)
Lemma error_ok0 st p : I st p -> exists s, read_error (unpacker c) st = Ok (Some s, []) /\ lenN (raw s) = bufsz c.
Proof.
  destruct st as [s sp t lim|h]; [|intros []]. cbn [I].
  intros (Lr & Hsp & Hlt & Hp & Hlp & Hcur & Hlim & Hrem). unfold read_error.
  destruct (N.eqb_spec t 0); [exists s; auto|]. cbn [unpacker u_parse u_reset].
  unfold unp_parse. destruct (N.ltb_spec (bufsz c) (remain s + t)); [lia|].
  destruct (parse_loop_ok (raw s) p 0 (remain s + t) (cur s) (N.to_nat (2 * (remain s + t) + 4)) [] p false)
    as (ps & off' & cu' & rem' & EQ & Hm & Ho & Ho1 & Ho2 & Hr & Hr2 & Hpe & Hnil & HF & Hc); try assumption; try lia.
  { assert (Lp : lenN p = remain s + t) by (rewrite Hp, lenN_takeN; lia).
    rewrite Hcur. unfold cur_for. destruct (N.ltb_spec (lenN p) (head_len c)); [auto|right; split; [lia|reflexivity]]. }
  { destruct (cur s =? npos c); lia. }
  rewrite EQ. cbn [bind]. rewrite build_msgs_ok by assumption. rewrite Hm. cbn [bind].
  destruct ps; [|discriminate]. unfold move_left. rewrite andb_false_r. cbn [bind].
  destruct Hnil as [Hnil _]. rewrite (Hnil eq_refl). cbn. eexists. split; [reflexivity|]. assumption.
Qed.

Lemma reset_I s : lenN (raw s) = bufsz c -> I (start_read (unpacker c) (unp_reset c s)) [].
Proof.
  intros. assert (Z : 0 <? head_len c = true) by (destruct (head_len_cases c); lia).
  apply start_ok; cbn [unp_reset raw remain cur]; auto.
  - rewrite lp_eq, lenN_nil, Z. reflexivity.
  - unfold cur_for. rewrite lenN_nil, Z. reflexivity.
Qed.

Lemma error_ok st p : I st p -> exists s, read_error (unpacker c) st = Ok (Some s, []) /\
  I (start_read (unpacker c) (u_reset (unpacker c) s)) [].
Proof. intros HI. destruct (error_ok0 st p HI) as (s & E & L). exists s. split; [exact E|]. apply reset_I. exact L. Qed.

Lemma unpacker_all mem : lenN mem = bufsz c ->
  receives_frames c (unpacker c) (unp_init c mem) /\ never_stops (unpacker c) (unp_init c mem) /\
  rejects_bad_header c (unpacker c) (unp_init c mem) /\ clean_after_break c (unpacker c) (unp_init c mem).
Proof. intros L. apply (rx_all c (unpacker c) I I_none feed_ok I_reading error_ok). apply init_I; exact L. Qed.
End Unp.
