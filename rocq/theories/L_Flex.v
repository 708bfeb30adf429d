(** ext::flexible_unpacker refines the greedy frame reader. *)
From Coq Require Import Arith List NArith Bool Lia ZifyBool ZifyNat ZifyN.
From Verif Require Import M_Bytes M_Config M_Rx M_Unpacker M_Flex S_Frame S_Rx L_Bytes L_Frame L_Rx L_FrameRx L_Unpacker.
From Verif Require L_NonCopy.
Import ListNotations.
Open Scope N_scope.

Section Flex.
Context (c : cfg) (g : nat -> byte) (HC : cfg_ok c = true).
Context (fx : N) (HX : head_len c <= fx) (HX2 : fx < npos c).
Notation U := (flexible_unpacker c g).

Definition pre_len : N := if stripped c then head_len c else 0.

Definition I (st : rxst fst_) (p : list byte) : Prop :=
  match st with
  | Halted _ => False
  | Reading s sp t lim =>
    lenN (fraw s) = fx /\ lim = sp - t /\ t < sp /\
    ( fbig s = [] /\ sp = fx - frem s /\ frem s + t < fx /\ p = takeN (frem s + t) (fraw s) /\
      lp c p = ([], p, false) /\ fcur s = cur_for c p /\ (head_len c <= lenN p -> hd_val c p <= fx)
      \/
      exists pre, lenN pre = pre_len /\ p = pre ++ takeN (frem s + t) (fbig s) /\ head_len c <= lenN p /\
      hd_val c p = lenN pre + lenN (fbig s) /\ lenN pre + lenN (fbig s) <= bufsz c /\
      fcur s = lenN (fbig s) /\ sp = lenN (fbig s) - frem s /\ frem s + t < lenN (fbig s) )
  end.

Lemma start_small s p : fbig s = [] -> lenN (fraw s) = fx -> frem s = lenN p -> p = takeN (frem s) (fraw s) ->
  lp c p = ([], p, false) -> fcur s = cur_for c p -> (head_len c <= lenN p -> hd_val c p <= fx) ->
  I (start_read U s) p.
Proof.
  destruct (cfg_ok_facts c HC) as (C1 & C2 & C3 & C4).
  intros Hb Lr Lm Hp Hlp Hcur Hsm. pose proof (lp_none _ _ Hlp) as Hn.
  assert (Hlt : frem s < fx).
  { rewrite Lm. destruct Hn as [Hn|(Hn1 & Hn2 & Hn3)]; [lia|]. specialize (Hsm Hn1). lia. }
  unfold start_read. cbn [flexible_unpacker u_space u_cc].
  unfold flex_space, flex_cc, flex_cap. rewrite Hb. cbn [is_nil]. rewrite Lr.
  destruct (N.ltb_spec (frem s) fx); [|lia].
  destruct (N.eqb_spec (fx - frem s) 0); [lia|].
  rewrite Hb. cbn [is_nil]. rewrite Lr, N.add_0_r.
  destruct (N.ltb_spec fx (frem s)); [lia|].
  assert (Hx : (fcur s =? npos c) && (head_len c <=? frem s) = false).
  { rewrite Hcur. unfold cur_for. rewrite <- Lm in *. destruct (N.ltb_spec (frem s) (head_len c)); [lia|].
    destruct Hn as [Hn|(Hn1 & Hn2 & Hn3)]; [lia|]. pose proof (not_bad_not_npos c HC _ Hn2). lia. }
  rewrite Hx.
  assert (Hy : (fcur s <=? frem s) = false).
  { rewrite Hcur. unfold cur_for. rewrite <- Lm in *. destruct (N.ltb_spec (frem s) (head_len c)); lia. }
  rewrite Hy. destruct (N.eqb_spec fx 0); [lia|].
  cbn [I]. split; [assumption|]. split; [lia|]. split; [lia|]. left.
  rewrite N.add_0_r. repeat split; try assumption; try lia.
Qed.

Lemma start_big s p pre : lenN pre = pre_len -> p = pre ++ takeN (frem s) (fbig s) -> head_len c <= lenN p ->
  hd_val c p = lenN pre + lenN (fbig s) -> lenN pre + lenN (fbig s) <= bufsz c ->
  fcur s = lenN (fbig s) -> frem s < lenN (fbig s) -> lenN (fraw s) = fx -> I (start_read U s) p.
Proof.
  destruct (cfg_ok_facts c HC) as (C1 & C2 & C3 & C4).
  intros Lp Hp Hh Hv Hb Hcur Hlt Lr.
  unfold start_read. cbn [flexible_unpacker u_space u_cc].
  unfold flex_space, flex_cc, flex_cap. rewrite L_NonCopy.is_nil_len.
  destruct (N.eqb_spec (lenN (fbig s)) 0); [lia|].
  destruct (N.ltb_spec (frem s) (lenN (fbig s))); [|lia].
  destruct (N.eqb_spec (lenN (fbig s) - frem s) 0); [lia|].
  rewrite L_NonCopy.is_nil_len. destruct (N.eqb_spec (lenN (fbig s)) 0); [lia|]. rewrite N.add_0_r.
  destruct (N.ltb_spec (lenN (fbig s)) (frem s)); [lia|].
  assert (Hx : (fcur s =? npos c) && (head_len c <=? frem s) = false) by lia. rewrite Hx.
  destruct (N.leb_spec (fcur s) (frem s)); [lia|].
  destruct (N.eqb_spec (lenN (fbig s)) 0); [lia|].
  cbn [I]. split; [assumption|]. split; [lia|]. split; [lia|]. right. exists pre.
  rewrite N.add_0_r. repeat split; try assumption; try lia.
Qed.

Lemma extend_ok s p : fbig s = [] -> lenN (fraw s) = fx -> frem s = lenN p -> p = takeN (frem s) (fraw s) ->
  fcur s = hd_val c p -> head_len c <= lenN p -> lenN p <= fx -> fx < hd_val c p -> hd_val c p <= bufsz c ->
  exists s', extend_buffer c g s = Ok s' /\ I (start_read U s') p.
Proof.
  intros Hb Lr Lm Hp Hcur Hh Hle Hbig Hmax. unfold extend_buffer. fold pre_len.
  assert (HP : pre_len <= head_len c) by (unfold pre_len; destruct (stripped c); lia).
  destruct ((fcur s <? pre_len) || (frem s <? pre_len)) eqn:E; [lia|].
  rewrite fetch_ok by lia. cbn [bind].
  set (l := takeN (frem s - pre_len) (dropN pre_len (fraw s))).
  assert (Ll : lenN l = frem s - pre_len) by (unfold l; rewrite lenN_takeN, lenN_dropN; lia).
  destruct (blit (garbage g (fcur s - pre_len)) 0 l) as [big|b] eqn:EB.
  2:{ rewrite blit_ok in EB by (rewrite L_NonCopy.lenN_garbage; lia). discriminate. }
  cbn [bind]. eexists. split; [reflexivity|].
  pose proof (blit_len _ _ _ _ EB) as Lb. rewrite L_NonCopy.lenN_garbage in Lb.
  pose proof (blit_take _ _ _ _ EB) as Htk. rewrite N.add_0_l, Ll in Htk. cbn [takeN] in Htk.
  assert (Hpp : p = takeN pre_len p ++ l).
  { rewrite <- (take_drop pre_len p) at 1. f_equal. unfold l. rewrite Hp at 1. rewrite dropN_takeN. reflexivity. }
  assert (Lpre : lenN (takeN pre_len p) = pre_len) by (rewrite lenN_takeN; lia).
  apply (start_big _ _ (takeN pre_len p)); cbn [fraw fbig fcur frem]; try assumption; try lia.
  rewrite Htk. assumption.
Qed.

(** parsing [q], the pending bytes, at the end of a read into the fixed buffer *)
Lemma complete_small s t q fs r e : fbig s = [] -> lenN (fraw s) = fx -> frem s + t <= fx -> 0 < t ->
  q = takeN (frem s + t) (fraw s) ->
  (fcur s = npos c \/ (head_len c <= frem s + t /\ fcur s = hd_val c q)) ->
  lp c q = (fs, r, e) -> (e = true \/ fs <> [] \/ (head_len c <= lenN q /\ fx < hd_val c q)) ->
  exists st', complete_read U s t = (st', [mk_rxout (delivers c fs) e]) /\ I st' (if e then [] else r).
Proof.
  destruct (cfg_ok_facts c HC) as (C1 & C2 & C3 & C4).
  intros Hbg Lr Hb Ht Hq Hcu Hlp Hne.
  assert (Lq : lenN q = frem s + t) by (rewrite Hq, lenN_takeN; lia).
  unfold complete_read. cbn [flexible_unpacker u_parse u_reset].
  unfold flex_parse, flex_cap. rewrite Hbg. cbn [is_nil negb]. rewrite Lr.
  destruct (N.ltb_spec fx (frem s + t)); [lia|].
  assert (HCU : exists cu, (if (fcur s =? npos c) && (head_len c <=? frem s + t) then read_head c (fraw s) 0 else Ok (fcur s)) = Ok cu
     /\ (cu = npos c \/ (head_len c <= frem s + t /\ cu = hd_val c q)) /\ (head_len c <= frem s + t -> cu = hd_val c q)
     /\ (frem s + t < head_len c -> cu = npos c)).
  { destruct ((fcur s =? npos c) && (head_len c <=? frem s + t)) eqn:E.
    - rewrite (read_head_ok c HC (fraw s) 0 q (frem s + t)); [|assumption|lia|lia].
      eexists. split; [reflexivity|]. repeat split; [right; split; [lia|reflexivity]|lia].
    - eexists. split; [reflexivity|]. split; [assumption|]. split; intros; destruct Hcu; lia. }
  destruct HCU as (cu & -> & HCU & Hcu1 & Hcu2). cbn [bind].
  destruct ((cu <=? bufsz c) && (fx <? cu)) eqn:Ebig.
  { (* big message *)
    assert (HH : head_len c <= frem s + t) by (destruct (N.leb_spec (head_len c) (frem s + t)); [assumption|rewrite Hcu2 in Ebig by lia; lia]).
    specialize (Hcu1 HH). rewrite Hcu1 in Ebig.
    rewrite lp_eq in Hlp. destruct (N.ltb_spec (lenN q) (head_len c)); [lia|].
    destruct (bad_len c (hd_val c q)) eqn:Hbad; [unfold bad_len in Hbad; lia|].
    destruct (N.ltb_spec (lenN q) (hd_val c q)); [|lia]. inversion Hlp; subst fs r e.
    destruct (extend_ok (mk_fst (fraw s) [] cu (frem s + t)) q) as (s' & -> & HI); cbn [fraw fbig fcur frem]; try assumption; try lia; try reflexivity.
    cbn [bind negb]. eexists. split; [reflexivity|]. assumption. }
  destruct (parse_loop_ok c HC (fraw s) q 0 (frem s + t) cu (N.to_nat (2 * (frem s + t) + 4)) fs r e)
    as (ps & off' & cu' & rem' & EQ & Hm & Ho & Ho1 & Ho2 & Hr & Hr2 & Hpe & Hnil & HF & Hc); try assumption; try lia.
  { destruct (cu =? npos c); lia. }
  rewrite EQ. cbn [bind]. rewrite (build_msgs_ok c HC) by assumption. rewrite Hm. cbn [bind].
  (* a big header in front is handled above *)
  assert (Hne' : e = true \/ fs <> []).
  { destruct Hne as [Hne|[Hne|[Hne1 Hne2]]]; auto. rewrite Lq in Hne1. specialize (Hcu1 Hne1).
    left. rewrite lp_eq in Hlp. destruct (N.ltb_spec (lenN q) (head_len c)); [lia|].
    destruct (bad_len c (hd_val c q)) eqn:Hbad; [inversion Hlp; reflexivity|]. unfold bad_len in Hbad. lia. }
  assert (HML : exists raw', move_left (fraw s) rem' ps = Ok raw' /\ lenN raw' = fx /\
                 (e = false -> takeN rem' raw' = r)).
  { unfold move_left. destruct ps as [|p0 ps0].
    - rewrite andb_false_r. exists (fraw s). repeat split; try assumption.
      intros He. destruct Hne' as [Hne'|Hne']; [congruence|]. cbn in Hm. congruence.
    - cbn [negb]. rewrite andb_true_r.
      change (fst (last (p0 :: ps0) (0, 0)) + snd (last (p0 :: ps0) (0, 0))) with (pos_end 0 (p0 :: ps0)).
      rewrite Hpe.
      assert (Hr' : r = takeN rem' (dropN off' (fraw s))).
      { pose proof (lp_concat _ _ _ _ _ Hlp) as HC1. apply (f_equal (dropN off')) in HC1.
        rewrite app_drop_eq in HC1.
        - rewrite HC1, Hq, dropN_takeN. f_equal. lia.
        - assert (HL : lenN (concat fs ++ r) = lenN q) by (f_equal; eapply lp_concat; exact Hlp).
          rewrite lenN_app in HL. lia. }
      destruct (N.ltb_spec 0 rem') as [Hz|Hz].
      + rewrite fetch_ok by lia. cbn [bind].
        assert (Lf : lenN (takeN rem' (dropN off' (fraw s))) = rem') by (rewrite lenN_takeN, lenN_dropN; lia).
        destruct (blit (fraw s) 0 (takeN rem' (dropN off' (fraw s)))) as [r1|b] eqn:EB.
        * exists r1. repeat split; [rewrite (blit_len _ _ _ _ EB); assumption|].
          intros _. apply blit_take in EB. rewrite Lf, N.add_0_l in EB. rewrite EB. cbn. symmetry. assumption.
        * rewrite blit_ok in EB by (rewrite Lf; lia). discriminate.
      + exists (fraw s). repeat split; try assumption. intros _. replace rem' with 0 by lia.
        symmetry. apply lenN_0. lia. }
  destruct HML as (raw' & -> & Lraw & Htk). cbn [bind].
  assert (Hoff : off' =? 0 = negb (negb (match ps with [] => true | _ => false end))).
  { destruct ps; cbn [negb]; [destruct Hnil as [Hnil _]; specialize (Hnil eq_refl); lia|].
    destruct Hnil as [_ Hnil]. destruct (N.eqb_spec off' 0) as [e0|]; [specialize (Hnil e0); discriminate|reflexivity]. }
  rewrite Hoff.
  assert (Hok : negb e && negb (negb (negb (match ps with [] => true | _ => false end))) = negb e).
  { destruct e; [reflexivity|]. destruct Hne' as [Hne'|Hne']; [discriminate|].
    destruct ps; [cbn in Hm; congruence|reflexivity]. }
  rewrite Hok.
  assert (Z : 0 <? head_len c = true) by (destruct (head_len_cases c); lia).
  destruct e; cbn [negb andb bind].
  - eexists. split; [reflexivity|].
    apply start_small; cbn [flex_reset fraw fbig fcur frem]; try assumption; try reflexivity.
    + rewrite lp_eq, lenN_nil, Z. reflexivity.
    + unfold cur_for. rewrite lenN_nil, Z. reflexivity.
    + rewrite lenN_nil. lia.
  - specialize (Htk eq_refl). specialize (Hc eq_refl).
    pose proof (lp_rest _ _ _ _ Hlp) as Hrest.
    destruct (negb (cu' =? npos c) && (fx <? cu')) eqn:Ex.
    + assert (HH : head_len c <= lenN r /\ cu' = hd_val c r).
      { unfold cur_for in Hc. destruct (N.ltb_spec (lenN r) (head_len c)); [lia|split; assumption]. }
      destruct HH as [HH1 HH2].
      destruct (lp_none _ _ Hrest) as [Hn|(Hn1 & Hn2 & Hn3)]; [lia|].
      destruct (extend_ok (mk_fst raw' [] cu' rem') r) as (s' & -> & HI); cbn [fraw fbig fcur frem]; try assumption; try lia; try reflexivity; try congruence.
      { unfold bad_len in Hn2. lia. }
      cbn [bind negb]. eexists. split; [reflexivity|]. assumption.
    + cbn [bind negb]. eexists. split; [reflexivity|].
      apply start_small; cbn [fraw fbig fcur frem]; try assumption; try congruence; try reflexivity.
      intros HH. destruct (lp_none _ _ Hrest) as [Hn|(Hn1 & Hn2 & Hn3)]; [lia|].
      pose proof (not_bad_not_npos c HC _ Hn2).
      unfold cur_for in Hc. destruct (N.ltb_spec (lenN r) (head_len c)); lia.
Qed.

Lemma complete_big s pre t fs r e : lenN pre = pre_len -> head_len c <= lenN pre + lenN (fbig s) -> 0 < lenN (fbig s) ->
  hd_val c (pre ++ fbig s) = lenN pre + lenN (fbig s) -> lenN pre + lenN (fbig s) <= bufsz c ->
  frem s + t = lenN (fbig s) -> lenN (fraw s) = fx -> lp c (pre ++ fbig s) = (fs, r, e) ->
  lenN pre + lenN (fbig s) > head_len c ->
  exists st', complete_read U s t = (st', [mk_rxout (delivers c fs) e]) /\ I st' (if e then [] else r).
Proof.
  intros Lp Hh H0 Hv Hb Ht Lr Hlp Hgt.
  assert (Z : 0 <? head_len c = true) by (destruct (head_len_cases c); lia).
  rewrite lp_eq in Hlp. rewrite lenN_app in Hlp. rewrite Hv in Hlp.
  destruct (N.ltb_spec (lenN pre + lenN (fbig s)) (head_len c)); [lia|].
  destruct (bad_len c (lenN pre + lenN (fbig s))) eqn:Hbad; [unfold bad_len in Hbad; lia|].
  destruct (N.ltb_spec (lenN pre + lenN (fbig s)) (lenN pre + lenN (fbig s))); [lia|].
  rewrite <- lenN_app in Hlp. rewrite dropN_all, takeN_all in Hlp by lia.
  rewrite lp_eq in Hlp. rewrite lenN_nil, Z in Hlp. inversion Hlp; subst fs r e.
  unfold complete_read. cbn [flexible_unpacker u_parse u_reset].
  unfold flex_parse, flex_cap. rewrite L_NonCopy.is_nil_len. destruct (N.eqb_spec (lenN (fbig s)) 0); [lia|]. cbn [negb].
  rewrite Ht. destruct (N.ltb_spec (lenN (fbig s)) (lenN (fbig s))); [lia|].
  rewrite N.eqb_refl. cbn [negb].
  assert (delivers c [pre ++ fbig s] = [fbig s]) as ->.
  { unfold delivers. cbn. unfold deliver. rewrite lenN_app.
    destruct (N.ltb_spec (head_len c) (lenN pre + lenN (fbig s))); [|lia].
    unfold pre_len in Lp. destruct (stripped c).
    - rewrite app_drop_eq by assumption. reflexivity.
    - apply lenN_0 in Lp. subst pre. reflexivity. }
  eexists. split; [reflexivity|].
  apply start_small; cbn [flex_reset fraw fbig fcur frem]; try assumption; try reflexivity.
  - rewrite lp_eq, lenN_nil, Z. reflexivity.
  - unfold cur_for. rewrite lenN_nil, Z. reflexivity.
  - rewrite lenN_nil. lia.
Qed.

Lemma feed_small awf s sp t lim p d st' o ms r e :
  lenN (fraw s) = fx -> lim = sp - t -> t < sp -> fbig s = [] -> sp = fx - frem s -> frem s + t < fx -> p = takeN (frem s + t) (fraw s) ->
  lp c p = ([], p, false) -> fcur s = cur_for c p -> (head_len c <= lenN p -> hd_val c p <= fx) ->
  feed awf U (Reading s sp t lim) d = Some (st', o) ->
  lpsplit c (p ++ d) = (ms, r, e) -> all_msgs o = ms /\ any_err o = e /\ I st' (if e then [] else r).
Proof.
  destruct (cfg_ok_facts c HC) as (C1 & C2 & C3 & C4).
  intros Lr Hlim HT Hbg Hsp Hlt Hp Hlp Hcur Hsm HF HS.
  unfold feed in HF. destruct ((lenN d =? 0) || (lim <? lenN d)) eqn:Hleg; [discriminate|].
  apply orb_false_elim in Hleg as [Hd0 Hd1]. inversion HF as [HF']; clear HF.
  cbn [flexible_unpacker u_write u_cc] in HF'. unfold flex_write in HF'. rewrite Hbg in HF'. cbn [is_nil] in HF'.
  destruct (blit (fraw s) (frem s + t) d) as [raw'|b] eqn:EB; cbn [bind] in HF';
    [|rewrite blit_ok in EB by lia; discriminate].
  pose proof (blit_len _ _ _ _ EB) as Lr'. pose proof (blit_take _ _ _ _ EB) as Htk.
  rewrite <- Hp in Htk.
  set (s1 := mk_fst raw' [] (fcur s) (frem s)) in *.
  unfold lpsplit in HS. destruct (lp c (p ++ d)) as [[fs r0] e0] eqn:Elp. inversion HS; subst ms r0 e0; clear HS.
  assert (Lp : lenN p = frem s + t) by (rewrite Hp, lenN_takeN; lia).
  assert (Lpd : lenN (p ++ d) = frem s + t + lenN d) by (rewrite lenN_app; lia).
  assert (Hpd : p ++ d = takeN (frem s + (t + lenN d)) raw') by (rewrite N.add_assoc; congruence).
  assert (Fin : forall s2, fraw s2 = raw' -> fbig s2 = [] -> frem s2 = frem s ->
     (fcur s2 = npos c \/ (head_len c <= frem s2 + (t + lenN d) /\ fcur s2 = hd_val c (p ++ d))) ->
     (e = true \/ fs <> [] \/ (head_len c <= lenN (p ++ d) /\ fx < hd_val c (p ++ d))) ->
     complete_read U s2 (t + lenN d) = (st', o) ->
     all_msgs o = delivers c fs /\ any_err o = e /\ I st' (if e then [] else r)).
  { intros s2 Hr2 Hb2 Hm2 Hc2 Hne HCR.
    destruct (complete_small s2 (t + lenN d) (p ++ d) fs r e) as (st1 & E1 & HI1); try assumption; try lia.
    { congruence. } { rewrite Hm2, Hr2. assumption. }
    rewrite E1 in HCR. inversion HCR; subst. unfold all_msgs, any_err. cbn. rewrite app_nil_r, orb_false_r. auto. }
  assert (Hcs : fcur s = npos c \/ (head_len c <= frem s + (t + lenN d) /\ fcur s = hd_val c (p ++ d))).
  { rewrite Hcur. unfold cur_for. destruct (N.ltb_spec (lenN p) (head_len c)); [left; reflexivity|].
    right. split; [lia|]. rewrite hd_val_app by lia. reflexivity. }
  assert (Hdec : forall k, fx <= k -> (e = true \/ fs <> [] \/ (head_len c <= lenN (p ++ d) /\ fx < hd_val c (p ++ d))) \/ lenN (p ++ d) < k).
  { intros k Hk. destruct (N.ltb_spec (lenN (p ++ d)) k); [auto|]. left. rewrite lp_eq in Elp.
    destruct (N.ltb_spec (lenN (p ++ d)) (head_len c)); [lia|].
    destruct (bad_len c (hd_val c (p ++ d))) eqn:Hb; [inversion Elp; auto|].
    destruct (N.ltb_spec (lenN (p ++ d)) (hd_val c (p ++ d))); [right; right; split; lia|].
    destruct (lp c (dropN (hd_val c (p ++ d)) (p ++ d))) as [[? ?] ?]. inversion Elp. right. left. discriminate. }
  destruct ((sp <=? t + lenN d) && negb awf) eqn:Hcase.
  { apply (Fin s1); auto. destruct (Hdec fx); [lia|assumption|lia]. }
  unfold flex_cc, flex_cap in HF'. cbn [s1 fraw fbig fcur frem is_nil] in HF'. rewrite Lr', Lr in HF'.
  destruct (N.ltb_spec fx (frem s + (t + lenN d))); [lia|].
  destruct ((fcur s =? npos c) && (head_len c <=? frem s + (t + lenN d))) eqn:Hx.
  - rewrite (read_head_ok c HC raw' 0 (p ++ d) (frem s + (t + lenN d))) in HF'; [cbn [bind] in HF'|assumption|lia|lia].
    set (n := hd_val c (p ++ d)) in *.
    assert (Fin2 : (e = true \/ fs <> [] \/ (head_len c <= lenN (p ++ d) /\ fx < n)) ->
       complete_read U (mk_fst raw' [] n (frem s)) (t + lenN d) = (st', o) ->
       all_msgs o = delivers c fs /\ any_err o = e /\ I st' (if e then [] else r)).
    { intros. apply (Fin (mk_fst raw' [] n (frem s))); try reflexivity; try assumption.
      right. cbn [fcur frem]. split; [lia|reflexivity]. }
    destruct ((bufsz c <? n) || (n <? head_len c) || (fx <? n)) eqn:Hn.
    + cbn [N.eqb orb] in HF'. apply Fin2; [|exact HF'].
      rewrite lp_eq in Elp. destruct (N.ltb_spec (lenN (p ++ d)) (head_len c)); [lia|]. fold n in Elp.
      destruct (bad_len c n) eqn:Hb; [inversion Elp; auto|]. right; right. unfold bad_len in Hb. split; lia.
    + rewrite lp_eq in Elp. destruct (N.ltb_spec (lenN (p ++ d)) (head_len c)); [lia|]. fold n in Elp.
      destruct (bad_len c n) eqn:Hb; [unfold bad_len in Hb; lia|].
      destruct (N.ltb_spec (lenN (p ++ d)) n).
      * inversion Elp; subst fs r e. destruct (N.leb_spec n (frem s + (t + lenN d))); [lia|].
        destruct (N.eqb_spec fx 0); [lia|]. cbn [orb] in HF'.
        destruct (N.leb_spec sp (t + lenN d)); [lia|].
        inversion HF'; subst st' o. split; [reflexivity|]. split; [reflexivity|]. cbn [I fraw fbig fcur frem].
        split; [congruence|]. split; [lia|]. split; [lia|]. left.
        repeat split; try assumption; try lia.
        -- rewrite lp_eq. destruct (N.ltb_spec (lenN (p ++ d)) (head_len c)); [lia|]. fold n. rewrite Hb.
           destruct (N.ltb_spec (lenN (p ++ d)) n); [reflexivity|lia].
        -- unfold cur_for. destruct (N.ltb_spec (lenN (p ++ d)) (head_len c)); [lia|reflexivity].
      * destruct (N.leb_spec n (frem s + (t + lenN d))); [|lia]. cbn [N.eqb orb] in HF'.
        apply Fin2; [|exact HF']. right. left.
        destruct (lp c (dropN n (p ++ d))) as [[? ?] ?]. inversion Elp. discriminate.
  - assert (Hcf : fcur s = cur_for c (p ++ d)).
    { rewrite Hcur in *. unfold cur_for in *. destruct (N.ltb_spec (lenN p) (head_len c)).
      - destruct (N.ltb_spec (lenN (p ++ d)) (head_len c)); [reflexivity|lia].
      - destruct (N.ltb_spec (lenN (p ++ d)) (head_len c)); [lia|]. rewrite hd_val_app by lia. reflexivity. }
    unfold cur_for in Hcf. rewrite lp_eq in Elp. destruct (N.ltb_spec (lenN (p ++ d)) (head_len c)).
    + inversion Elp; subst fs r e. destruct (N.leb_spec (fcur s) (frem s + (t + lenN d))); [lia|].
      destruct (N.eqb_spec fx 0); [lia|]. cbn [orb] in HF'.
      destruct (N.leb_spec sp (t + lenN d)); [lia|].
      inversion HF'; subst st' o. split; [reflexivity|]. split; [reflexivity|]. cbn [I s1 fraw fbig fcur frem].
      split; [congruence|]. split; [lia|]. split; [lia|]. left.
      repeat split; try assumption; try lia.
      * rewrite lp_eq. destruct (N.ltb_spec (lenN (p ++ d)) (head_len c)); [reflexivity|lia].
      * unfold cur_for. destruct (N.ltb_spec (lenN (p ++ d)) (head_len c)); [assumption|lia].
    + assert (HP : head_len c <= lenN p).
      { destruct (N.ltb_spec (lenN p) (head_len c)); [|assumption]. rewrite Hcur in Hx. unfold cur_for in Hx.
        destruct (N.ltb_spec (lenN p) (head_len c)); lia. }
      specialize (Hsm HP). rewrite <- (hd_val_app c p d HP) in Hsm. rewrite <- Hcf in *.
      destruct (lp_none _ _ Hlp) as [Hn|(Hn1 & Hn2 & Hn3)]; [lia|]. rewrite <- (hd_val_app c p d HP), <- Hcf in Hn2, Hn3.
      rewrite Hn2 in Elp.
      destruct (N.ltb_spec (lenN (p ++ d)) (fcur s)).
      * inversion Elp; subst fs r e. destruct (N.leb_spec (fcur s) (frem s + (t + lenN d))); [lia|].
        destruct (N.eqb_spec fx 0); [lia|]. cbn [orb] in HF'.
        destruct (N.leb_spec sp (t + lenN d)); [lia|].
        inversion HF'; subst st' o. split; [reflexivity|]. split; [reflexivity|]. cbn [I s1 fraw fbig fcur frem].
        split; [congruence|]. split; [lia|]. split; [lia|]. left.
        repeat split; try assumption; try lia.
        -- rewrite lp_eq. destruct (N.ltb_spec (lenN (p ++ d)) (head_len c)); [lia|]. rewrite <- Hcf, Hn2.
           destruct (N.ltb_spec (lenN (p ++ d)) (fcur s)); [reflexivity|lia].
        -- unfold cur_for. destruct (N.ltb_spec (lenN (p ++ d)) (head_len c)); [lia|assumption].
      * destruct (N.leb_spec (fcur s) (frem s + (t + lenN d))); [|lia]. cbn [N.eqb orb] in HF'.
        apply (Fin s1); auto.
        right. left. destruct (lp c (dropN (fcur s) (p ++ d))) as [[? ?] ?]. inversion Elp. discriminate.
Qed.

Lemma feed_big awf s sp t lim p d st' o ms r e pre :
  lenN (fraw s) = fx -> lim = sp - t -> t < sp ->
  lenN pre = pre_len -> p = pre ++ takeN (frem s + t) (fbig s) -> head_len c <= lenN p ->
  hd_val c p = lenN pre + lenN (fbig s) -> lenN pre + lenN (fbig s) <= bufsz c ->
  fcur s = lenN (fbig s) -> sp = lenN (fbig s) - frem s -> frem s + t < lenN (fbig s) ->
  feed awf U (Reading s sp t lim) d = Some (st', o) ->
  lpsplit c (p ++ d) = (ms, r, e) -> all_msgs o = ms /\ any_err o = e /\ I st' (if e then [] else r).
Proof.
  destruct (cfg_ok_facts c HC) as (C1 & C2 & C3 & C4).
  intros Lr Hlim HT Lpre Hp Hh Hv Hmax Hcur Hsp Hlt HF HS.
  unfold feed in HF. destruct ((lenN d =? 0) || (lim <? lenN d)) eqn:Hleg; [discriminate|].
  apply orb_false_elim in Hleg as [Hd0 Hd1]. inversion HF as [HF']; clear HF.
  cbn [flexible_unpacker u_write u_cc] in HF'. unfold flex_write in HF'. rewrite L_NonCopy.is_nil_len in HF'.
  destruct (N.eqb_spec (lenN (fbig s)) 0); [lia|].
  destruct (blit (fbig s) (frem s + t) d) as [big'|b] eqn:EB; cbn [bind] in HF';
    [|rewrite blit_ok in EB by lia; discriminate].
  pose proof (blit_len _ _ _ _ EB) as Lb'. pose proof (blit_take _ _ _ _ EB) as Htk.
  set (s1 := mk_fst (fraw s) big' (fcur s) (frem s)) in *.
  unfold lpsplit in HS. destruct (lp c (p ++ d)) as [[fs r0] e0] eqn:Elp. inversion HS; subst ms r0 e0; clear HS.
  assert (Lp : lenN p = lenN pre + (frem s + t)) by (rewrite Hp, lenN_app, lenN_takeN; lia).
  assert (Lpd : lenN (p ++ d) = lenN pre + (frem s + t + lenN d)) by (rewrite lenN_app; lia).
  assert (Hpd : p ++ d = pre ++ takeN (frem s + (t + lenN d)) big').
  { rewrite N.add_assoc, Htk, Hp, app_assoc. reflexivity. }
  assert (Hv' : hd_val c (p ++ d) = lenN pre + lenN big') by (rewrite hd_val_app by assumption; rewrite Lb'; assumption).
  assert (Hnb : bad_len c (lenN pre + lenN big') = false) by (unfold bad_len; lia).
  assert (Fin : sp <= t + lenN d -> complete_read U s1 (t + lenN d) = (st', o) ->
     all_msgs o = delivers c fs /\ any_err o = e /\ I st' (if e then [] else r)).
  { intros Hfull HCR. assert (Hall : frem s + (t + lenN d) = lenN big') by lia.
    rewrite Hall, takeN_all in Hpd by lia.
    destruct (complete_big s1 pre (t + lenN d) fs r e) as (st1 & E1 & HI1); cbn [s1 fraw fbig fcur frem]; try assumption; try lia; try congruence.
    rewrite E1 in HCR. inversion HCR; subst. unfold all_msgs, any_err. cbn. rewrite app_nil_r, orb_false_r. auto. }
  destruct ((sp <=? t + lenN d) && negb awf) eqn:Hcase; [apply Fin; [lia|assumption]|].
  unfold flex_cc, flex_cap in HF'. cbn [s1 fraw fbig fcur frem] in HF'. rewrite L_NonCopy.is_nil_len in HF'.
  destruct (N.eqb_spec (lenN big') 0); [lia|].
  destruct (N.ltb_spec (lenN big') (frem s + (t + lenN d))); [lia|].
  destruct ((fcur s =? npos c) && (head_len c <=? frem s + (t + lenN d))) eqn:Hx; [lia|].
  destruct (N.leb_spec (fcur s) (frem s + (t + lenN d))).
  - cbn [N.eqb orb] in HF'. apply Fin; [lia|assumption].
  - destruct (N.eqb_spec (lenN big') 0); [lia|]. cbn [orb] in HF'.
    destruct (N.leb_spec sp (t + lenN d)); [lia|].
    inversion HF'; subst st' o.
    rewrite lp_eq in Elp. destruct (N.ltb_spec (lenN (p ++ d)) (head_len c)); [lia|].
    rewrite Hv', Hnb in Elp. destruct (N.ltb_spec (lenN (p ++ d)) (lenN pre + lenN big')); [|lia].
    inversion Elp; subst fs r e. split; [reflexivity|]. split; [reflexivity|]. cbn [I s1 fraw fbig fcur frem].
    split; [congruence|]. split; [lia|]. split; [lia|]. right. exists pre.
    repeat split; try assumption; try lia.
Qed.

Lemma feed_ok awf st p d st' o ms r e : I st p -> feed awf U st d = Some (st', o) ->
  lpsplit c (p ++ d) = (ms, r, e) -> all_msgs o = ms /\ any_err o = e /\ I st' (if e then [] else r).
Proof.
  destruct st as [s sp t lim|h]; [|intros []]. cbn [I].
  intros (Lr & Hlim & HT & [(A1 & A2 & A3 & A4 & A5 & A6 & A7)|(pre & B1 & B2 & B3 & B4 & B5 & B6 & B7 & B8)]) HF HS.
  - apply (feed_small awf s sp t lim p d st' o ms r e); assumption.
  - apply (feed_big awf s sp t lim p d st' o ms r e pre); assumption.
Qed.

Lemma I_none st p : I st p -> lpsplit c p = ([], p, false).
Proof.
  destruct st as [s sp t lim|h]; [|intros []]. cbn [I]. unfold lpsplit.
  intros (Lr & Hlim & HT & [(A1 & A2 & A3 & A4 & A5 & A6 & A7)|(pre & B1 & B2 & B3 & B4 & B5 & B6 & B7 & B8)]).
  - rewrite A5. reflexivity.
  - rewrite lp_eq. destruct (N.ltb_spec (lenN p) (head_len c)); [lia|].
    rewrite B4. assert (Lp : lenN p = lenN pre + (frem s + t)) by (rewrite B2, lenN_app, lenN_takeN; lia).
    assert (Hnb : bad_len c (lenN pre + lenN (fbig s)) = false) by (unfold bad_len; lia). rewrite Hnb.
    destruct (N.ltb_spec (lenN p) (lenN pre + lenN (fbig s))); [reflexivity|lia].
Qed.

Lemma I_reading st p : I st p -> exists s sp t lim, st = Reading s sp t lim /\ 0 < lim /\ t + lim <= sp.
Proof.
  destruct st as [s sp t lim|]; [|intros []]. cbn [I]. intros (L & E & T & _).
  exists s, sp, t, lim. repeat split; lia.
Qed.

Lemma reset_I s : lenN (fraw s) = fx -> I (start_read U (flex_reset c s)) [].
Proof.
  intros. assert (Z : 0 <? head_len c = true) by (destruct (head_len_cases c); lia).
  apply start_small; cbn [flex_reset fraw fbig fcur frem]; auto.
  - rewrite lp_eq, lenN_nil, Z. reflexivity.
  - unfold cur_for. rewrite lenN_nil, Z. reflexivity.
  - rewrite lenN_nil. lia.
Qed.

Lemma error_ok st p : I st p -> exists s, read_error U st = Ok (Some s, []) /\ I (start_read U (u_reset U s)) [].
Proof.
  destruct (cfg_ok_facts c HC) as (C1 & C2 & C3 & C4).
  assert (Main : I st p -> exists s, read_error U st = Ok (Some s, []) /\ lenN (fraw s) = fx).
  2:{ intros HI. destruct (Main HI) as (s & E & L). exists s. split; [exact E|]. apply reset_I. exact L. }
  destruct st as [s sp t lim|h]; [|intros []]. cbn [I].
  intros (Lr & Hlim & HT & HI). unfold read_error.
  destruct (N.eqb_spec t 0); [exists s; auto|]. cbn [flexible_unpacker u_parse u_reset].
  unfold flex_parse, flex_cap.
  destruct HI as [(A1 & A2 & A3 & A4 & A5 & A6 & A7)|(pre & B1 & B2 & B3 & B4 & B5 & B6 & B7 & B8)].
  - rewrite A1. cbn [is_nil negb]. rewrite Lr. destruct (N.ltb_spec fx (frem s + t)); [lia|].
    assert (Lp : lenN p = frem s + t) by (rewrite A4, lenN_takeN; lia).
    destruct (lp_none _ _ A5) as [Hn|(Hn1 & Hn2 & Hn3)].
    + destruct ((fcur s =? npos c) && (head_len c <=? frem s + t)) eqn:E; [lia|]. cbn [bind].
      assert (Hcn : fcur s = npos c) by (rewrite A6; unfold cur_for; destruct (N.ltb_spec (lenN p) (head_len c)); [reflexivity|lia]).
      destruct ((fcur s <=? bufsz c) && (fx <? fcur s)) eqn:E2; [lia|].
      destruct (parse_loop_ok c HC (fraw s) p 0 (frem s + t) (fcur s) (N.to_nat (2 * (frem s + t) + 4)) [] p false)
        as (ps & off' & cu' & rem' & EQ & Hm & Ho & Ho1 & Ho2 & Hr & Hr2 & Hpe & Hnil & HF & Hc); try assumption; try lia.
      { destruct (fcur s =? npos c); lia. }
      rewrite EQ. cbn [bind]. rewrite (build_msgs_ok c HC) by assumption. rewrite Hm. cbn [bind].
      destruct ps; [|discriminate]. unfold move_left. rewrite andb_false_r. cbn [bind].
      destruct Hnil as [Hnil _]. rewrite (Hnil eq_refl). cbn. eexists. split; [reflexivity|]. assumption.
    + assert (Hcn : fcur s = hd_val c p) by (rewrite A6; unfold cur_for; destruct (N.ltb_spec (lenN p) (head_len c)); [lia|reflexivity]).
      pose proof (not_bad_not_npos c HC _ Hn2) as Hnn.
      destruct ((fcur s =? npos c) && (head_len c <=? frem s + t)) eqn:E; [lia|]. cbn [bind].
      specialize (A7 Hn1). destruct ((fcur s <=? bufsz c) && (fx <? fcur s)) eqn:E2; [lia|].
      destruct (parse_loop_ok c HC (fraw s) p 0 (frem s + t) (fcur s) (N.to_nat (2 * (frem s + t) + 4)) [] p false)
        as (ps & off' & cu' & rem' & EQ & Hm & Ho & Ho1 & Ho2 & Hr & Hr2 & Hpe & Hnil & HF & Hc); try assumption; try lia.
      { destruct (fcur s =? npos c); lia. }
      rewrite EQ. cbn [bind]. rewrite (build_msgs_ok c HC) by assumption. rewrite Hm. cbn [bind].
      destruct ps; [|discriminate]. unfold move_left. rewrite andb_false_r. cbn [bind].
      destruct Hnil as [Hnil _]. rewrite (Hnil eq_refl). cbn. eexists. split; [reflexivity|]. assumption.
  - rewrite L_NonCopy.is_nil_len. destruct (N.eqb_spec (lenN (fbig s)) 0); [lia|]. cbn [negb].
    destruct (N.ltb_spec (lenN (fbig s)) (frem s + t)); [lia|].
    destruct (N.eqb_spec (frem s + t) (lenN (fbig s))); [lia|]. cbn [negb].
    eexists. split; [reflexivity|]. assumption.
Qed.

Lemma flex_all mem : lenN mem = fx ->
  receives_frames c U (flex_init c mem) /\ never_stops U (flex_init c mem) /\
  rejects_bad_header c U (flex_init c mem) /\ clean_after_break c U (flex_init c mem).
Proof.
  intros L. apply (rx_all c U I I_none feed_ok I_reading error_ok).
  apply (reset_I (flex_init c mem)). exact L.
Qed.
End Flex.
