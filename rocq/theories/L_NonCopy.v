(** ext::non_copy_unpacker refines the greedy frame reader. *)
From Coq Require Import Arith List NArith Bool Lia ZifyBool ZifyNat ZifyN.
From Verif Require Import M_Bytes M_Config M_Rx M_Flex M_NonCopy S_Frame S_Rx L_Bytes L_Frame L_Rx L_FrameRx.
Import ListNotations.
Open Scope N_scope.

Lemma lenN_garbage g n : lenN (garbage g n) = n.
Proof. unfold lenN, garbage. rewrite map_length, seq_length. lia. Qed.
Lemma is_nil_len {A} (l : list A) : is_nil l = (lenN l =? 0).
Proof. destruct l; [reflexivity|]. cbn [is_nil]. unfold lenN; cbn [length]. lia. Qed.

Section NC.
Context (c : cfg) (g : nat -> byte) (HC : cfg_ok c = true) (HS : stripped c = true).
Notation U := (non_copy_unpacker c g).

Definition I (st : rxst nst) (p : list byte) : Prop :=
  match st with
  | Halted _ => False
  | Reading s sp t lim =>
    lenN (nhead s) = head_len c /\ t < sp /\ lim = sp - t /\
    (nstep s = 0 /\ nbuf s = [] /\ sp = head_len c /\ p = takeN t (nhead s)
     \/ nstep s = 1 /\ 0 < lenN (nbuf s) /\ be_decode (nhead s) = head_len c + lenN (nbuf s) /\
        head_len c + lenN (nbuf s) <= bufsz c /\ sp = lenN (nbuf s) /\ p = nhead s ++ takeN t (nbuf s))
  end.

Lemma start0 h : lenN h = head_len c -> I (start_read U (mk_nst h [] 0)) [].
Proof.
  intros L. unfold start_read. cbn [non_copy_unpacker u_space u_cc nc_space nbuf is_nil].
  unfold nc_space, nc_cc. cbn [nbuf nstep is_nil N.eqb].
  destruct (N.eqb_spec (head_len c) 0); [destruct (head_len_cases c); lia|].
  cbn [I nhead nbuf nstep]. rewrite N.min_id.
  destruct (head_len_cases c); repeat split; try lia; left; repeat split.
Qed.

Lemma start1 h b : lenN h = head_len c -> 0 < lenN b -> be_decode h = head_len c + lenN b ->
  head_len c + lenN b <= bufsz c -> I (start_read U (mk_nst h b 1)) h.
Proof.
  intros L1 L2 L3 L4. unfold start_read. cbn [non_copy_unpacker u_space u_cc].
  unfold nc_space, nc_cc. cbn [nbuf nstep N.eqb Pos.eqb]. rewrite is_nil_len.
  destruct (N.eqb_spec (lenN b) 0); [lia|]. destruct (N.eqb_spec (lenN b) 0); [lia|].
  cbn [I nhead nbuf nstep]. rewrite N.min_id.
  repeat split; try lia. right. repeat split; try assumption. rewrite app_nil_r. reflexivity.
Qed.

Lemma lp_short p : lenN p < head_len c -> lp c p = ([], p, false).
Proof. intros. rewrite lp_eq. destruct (N.ltb_spec (lenN p) (head_len c)); [reflexivity|lia]. Qed.

Lemma hd_app h b : lenN h = head_len c -> hd_val c (h ++ b) = be_decode h.
Proof. intros L. unfold hd_val. rewrite app_take_eq by congruence. reflexivity. Qed.

Lemma lp_part h b n : lenN h = head_len c -> be_decode h = head_len c + n -> head_len c + n <= bufsz c ->
  lenN b < n -> lp c (h ++ b) = ([], h ++ b, false).
Proof.
  intros L1 L2 L3 L4. rewrite lp_eq, hd_app, lenN_app by assumption. unfold bad_len.
  destruct (N.ltb_spec (lenN h + lenN b) (head_len c)); [lia|]. rewrite L2.
  destruct ((bufsz c <? head_len c + n) || (head_len c + n <? head_len c)) eqn:E; [lia|].
  destruct (N.ltb_spec (lenN h + lenN b) (head_len c + n)); [reflexivity|lia].
Qed.

Lemma lp_full h b : lenN h = head_len c -> be_decode h = head_len c + lenN b -> head_len c + lenN b <= bufsz c ->
  lp c (h ++ b) = ([h ++ b], [], false).
Proof.
  intros L1 L2 L3. rewrite lp_eq, hd_app, lenN_app by assumption. unfold bad_len.
  destruct (N.ltb_spec (lenN h + lenN b) (head_len c)); [lia|]. rewrite L2.
  destruct ((bufsz c <? head_len c + lenN b) || (head_len c + lenN b <? head_len c)) eqn:E; [lia|].
  destruct (N.ltb_spec (lenN h + lenN b) (head_len c + lenN b)); [lia|].
  assert (LL : head_len c + lenN b = lenN (h ++ b)) by (rewrite lenN_app; lia).
  rewrite LL, dropN_all, takeN_all by lia. rewrite lp_short; [reflexivity|].
  rewrite lenN_nil. destruct (head_len_cases c); lia.
Qed.

Lemma lp_bad h : lenN h = head_len c -> be_decode h < head_len c \/ bufsz c < be_decode h -> lp c h = ([], h, true).
Proof.
  intros L1 L2. rewrite lp_eq. rewrite <- (app_nil_r h) at 3. rewrite hd_app by assumption.
  destruct (N.ltb_spec (lenN h) (head_len c)); [lia|]. unfold bad_len.
  destruct ((bufsz c <? be_decode h) || (be_decode h <? head_len c)) eqn:E; [reflexivity|lia].
Qed.

Lemma I_none st p : I st p -> lpsplit c p = ([], p, false).
Proof.
  destruct st as [s sp t lim|]; [|intros []]. cbn [I]. intros (L & T & _ & [(A1 & A2 & A3 & ->)|(B1 & B2 & B3 & B4 & B5 & ->)]);
    unfold lpsplit.
  - rewrite lp_short; [reflexivity|]. rewrite lenN_takeN. lia.
  - rewrite (lp_part _ _ (lenN (nbuf s))); try assumption; [reflexivity|]. rewrite lenN_takeN. lia.
Qed.

Lemma I_reading st p : I st p -> exists s sp t lim, st = Reading s sp t lim /\ 0 < lim /\ t + lim <= sp.
Proof.
  destruct st as [s sp t lim|]; [|intros []]. cbn [I]. intros (L & T & E & _).
  exists s, sp, t, lim. repeat split; lia.
Qed.

(** the head is complete *)
Lemma complete0 h fs r e : lenN h = head_len c -> lp c h = (fs, r, e) ->
  exists st', complete_read U (mk_nst h [] 0) (head_len c) = (st', [mk_rxout (delivers c fs) e]) /\ I st' (if e then [] else r).
Proof.
  destruct (cfg_ok_facts c HC) as (C1 & C2 & C3 & C4). intros L E.
  assert (BD : be_decode h < head_range c).
  { pose proof (be_decode_bound h) as B. rewrite L in B. exact B. }
  unfold complete_read. cbn [non_copy_unpacker u_parse u_reset]. unfold nc_parse.
  cbn [nstep nbuf nhead is_nil N.eqb negb]. rewrite N.eqb_refl. cbn [negb].
  assert (Hn : exists n, (be_decode h + size_range c - head_len c) mod size_range c = n /\
     (head_len c <= be_decode h -> n = be_decode h - head_len c) /\ (be_decode h < head_len c -> bufsz c - head_len c < n)).
  { eexists. split; [reflexivity|]. unfold size_range. split; intros H.
    - replace (be_decode h + (npos c + 1) - head_len c) with (be_decode h - head_len c + 1 * (npos c + 1)) by lia.
      rewrite N.mod_add by lia. apply N.mod_small. destruct (head_len_cases c); lia.
    - rewrite N.mod_small by (destruct (head_len_cases c); lia). lia. }
  destruct Hn as (n & -> & H1 & H2).
  destruct (N.ltb_spec (bufsz c - head_len c) n) as [Hb|Hb].
  - rewrite lp_bad in E by (try assumption; lia). inversion E; subst fs r e.
    cbn [negb nc_reset nhead]. eexists; split; [reflexivity|]. apply start0. assumption.
  - destruct (N.ltb_spec 0 n) as [Hz|Hz].
    + rewrite <- (app_nil_r h) in E. rewrite (lp_part _ _ n) in E; try assumption; try (rewrite ?lenN_nil; lia).
      inversion E; subst fs r e. rewrite app_nil_r. cbn [negb]. eexists; split; [reflexivity|].
      apply start1; rewrite ?lenN_garbage; try assumption; try lia.
    + rewrite <- (app_nil_r h) in E. rewrite lp_full in E; try assumption; try (rewrite ?lenN_nil; lia).
      inversion E; subst fs r e. rewrite app_nil_r. cbn [negb].
      assert (delivers c [h] = []) as ->.
      { unfold delivers. cbn. unfold deliver. destruct (N.ltb_spec (head_len c) (lenN h)); [lia|reflexivity]. }
      eexists; split; [reflexivity|]. apply start0. assumption.
Qed.

Lemma complete1 h b fs r e : lenN h = head_len c -> 0 < lenN b -> be_decode h = head_len c + lenN b ->
  head_len c + lenN b <= bufsz c -> lp c (h ++ b) = (fs, r, e) ->
  exists st', complete_read U (mk_nst h b 1) (lenN b) = (st', [mk_rxout (delivers c fs) e]) /\ I st' (if e then [] else r).
Proof.
  intros L1 L2 L3 L4 E. rewrite lp_full in E by assumption. inversion E; subst fs r e.
  unfold complete_read. cbn [non_copy_unpacker u_parse u_reset]. unfold nc_parse.
  cbn [nstep nbuf nhead N.eqb Pos.eqb]. rewrite is_nil_len. destruct (N.eqb_spec (lenN b) 0); [lia|].
  rewrite N.eqb_refl. cbn [negb].
  assert (delivers c [h ++ b] = [b]) as ->.
  { unfold delivers. cbn. unfold deliver. rewrite lenN_app.
    destruct (N.ltb_spec (head_len c) (lenN h + lenN b)); [|lia]. rewrite HS.
    rewrite app_drop_eq by congruence. reflexivity. }
  eexists; split; [reflexivity|]. apply start0. assumption.
Qed.

Lemma feed_ok awf st p d st' o ms r e : I st p -> feed awf U st d = Some (st', o) ->
  lpsplit c (p ++ d) = (ms, r, e) -> all_msgs o = ms /\ any_err o = e /\ I st' (if e then [] else r).
Proof.
  destruct st as [s sp t lim|h]; [|intros []]. cbn [I].
  intros (L & HT & Hlim & HI) HF HSp.
  unfold feed in HF. destruct ((lenN d =? 0) || (lim <? lenN d)) eqn:Hleg; [discriminate|].
  apply orb_false_elim in Hleg as [Hd0 Hd1]. inversion HF as [HF']; clear HF.
  unfold lpsplit in HSp. destruct (lp c (p ++ d)) as [[fs r0] e0] eqn:Elp. inversion HSp; subst ms r0 e0; clear HSp.
  cbn [non_copy_unpacker u_write u_cc] in HF'. unfold nc_write in HF'.
  destruct HI as [(A1 & A2 & A3 & Hp)|(B1 & B2 & B3 & B4 & B5 & Hp)].
  - rewrite A2 in HF'. cbn [is_nil] in HF'.
    destruct (blit (nhead s) t d) as [h'|b] eqn:EB; cbn [bind] in HF'; [|rewrite blit_ok in EB by lia; discriminate].
    pose proof (blit_len _ _ _ _ EB) as Lh. pose proof (blit_take _ _ _ _ EB) as Htk. rewrite <- Hp in Htk.
    rewrite A1 in HF'. unfold nc_cc in HF'. cbn [nstep nbuf is_nil N.eqb] in HF'.
    assert (FIN : sp <= t + lenN d -> complete_read U (mk_nst h' [] 0) (t + lenN d) = (st', o) ->
      all_msgs o = delivers c fs /\ any_err o = e /\ I st' (if e then [] else r)).
    { intros Hf HCR. assert (Ht : t + lenN d = head_len c) by lia. rewrite Ht in *.
      rewrite takeN_all in Htk by lia. rewrite <- Htk in Elp.
      destruct (complete0 h' fs r e) as (st1 & E1 & HI1); try assumption; try lia.
      rewrite E1 in HCR. inversion HCR; subst. unfold all_msgs, any_err. cbn. rewrite app_nil_r, orb_false_r. auto. }
    destruct ((sp <=? t + lenN d) && negb awf) eqn:Hcase; [apply FIN; [lia|assumption]|].
    destruct (N.eqb_spec (head_len c) 0); [destruct (head_len_cases c); lia|]. cbn [orb] in HF'.
    destruct (N.leb_spec sp (t + lenN d)); [apply FIN; assumption|].
    inversion HF'; subst st' o. rewrite <- Htk in Elp. rewrite lp_short in Elp by (rewrite lenN_takeN; lia).
    inversion Elp; subst fs r e. split; [reflexivity|]. split; [reflexivity|]. cbn [I nhead nbuf nstep].
    split; [congruence|]. split; [lia|]. split; [lia|]. left. auto.
  - rewrite is_nil_len in HF'. destruct (N.eqb_spec (lenN (nbuf s)) 0); [lia|].
    destruct (blit (nbuf s) t d) as [b'|b] eqn:EB; cbn [bind] in HF'; [|rewrite blit_ok in EB by lia; discriminate].
    pose proof (blit_len _ _ _ _ EB) as Lb. pose proof (blit_take _ _ _ _ EB) as Htk.
    assert (Hpd : p ++ d = nhead s ++ takeN (t + lenN d) b') by (rewrite Htk, Hp, app_assoc; reflexivity).
    rewrite B1 in HF'. unfold nc_cc in HF'. cbn [nstep nbuf N.eqb Pos.eqb] in HF'. rewrite is_nil_len in HF'.
    assert (FIN : sp <= t + lenN d -> complete_read U (mk_nst (nhead s) b' 1) (t + lenN d) = (st', o) ->
      all_msgs o = delivers c fs /\ any_err o = e /\ I st' (if e then [] else r)).
    { intros Hf HCR. assert (Ht : t + lenN d = lenN b') by lia. rewrite Ht in *.
      rewrite takeN_all in Hpd by lia. rewrite Hpd in Elp.
      destruct (complete1 (nhead s) b' fs r e) as (st1 & E1 & HI1); try assumption; try lia.
      rewrite E1 in HCR. inversion HCR; subst. unfold all_msgs, any_err. cbn. rewrite app_nil_r, orb_false_r. auto. }
    destruct ((sp <=? t + lenN d) && negb awf) eqn:Hcase; [apply FIN; [lia|assumption]|].
    destruct (N.eqb_spec (lenN b') 0); [lia|].
    destruct (N.eqb_spec (lenN b') 0); [lia|]. cbn [orb] in HF'.
    destruct (N.leb_spec sp (t + lenN d)); [apply FIN; assumption|].
    inversion HF'; subst st' o. rewrite Hpd in Elp. rewrite (lp_part _ _ (lenN b')) in Elp; try assumption; try congruence.
    2: rewrite lenN_takeN; lia.
    inversion Elp; subst fs r e. split; [reflexivity|]. split; [reflexivity|]. cbn [I nhead nbuf nstep].
    split; [congruence|]. split; [lia|]. split; [lia|]. right. rewrite Lb. repeat split; try assumption; try lia.
Qed.

Lemma error_ok st p : I st p -> exists s, read_error U st = Ok (Some s, []) /\ I (start_read U (u_reset U s)) [].
Proof.
  destruct st as [s sp t lim|]; [|intros []]. cbn [I]. intros (L & T & _ & HI). unfold read_error.
  destruct (N.eqb_spec t 0).
  { exists s. split; [reflexivity|]. cbn [non_copy_unpacker u_reset]. unfold nc_reset. apply start0. assumption. }
  cbn [non_copy_unpacker u_parse u_reset]. unfold nc_parse.
  destruct HI as [(A1 & A2 & A3 & Hp)|(B1 & B2 & B3 & B4 & B5 & Hp)].
  - rewrite A1, A2. cbn [N.eqb is_nil negb]. destruct (N.eqb_spec t (head_len c)); [lia|]. cbn [negb].
    eexists. split; [reflexivity|]. unfold nc_reset; cbn [nhead]. apply start0. assumption.
  - rewrite B1. cbn [N.eqb Pos.eqb]. rewrite is_nil_len. destruct (N.eqb_spec (lenN (nbuf s)) 0); [lia|].
    destruct (N.eqb_spec t (lenN (nbuf s))); [lia|]. cbn [negb].
    eexists. split; [reflexivity|]. unfold nc_reset; cbn [nhead]. apply start0. assumption.
Qed.

Lemma non_copy_all mem : lenN mem = head_len c ->
  receives_frames c U (nc_init mem) /\ never_stops U (nc_init mem) /\
  rejects_bad_header c U (nc_init mem) /\ clean_after_break c U (nc_init mem).
Proof. intros L. apply (rx_all c U I I_none feed_ok I_reading error_ok). apply start0; exact L. Qed.
End NC.
