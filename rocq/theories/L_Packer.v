(** Proofs about the packers. *)
From Coq Require Import List NArith Bool Lia ZifyBool ZifyNat ZifyN.
From Verif Require Import M_Bytes M_Config M_PrefixSuffix M_Packer S_Frame S_Affix S_Packer L_Bytes L_Frame.
Import ListNotations.
Open Scope N_scope.

Lemma size_range_facts c : cfg_ok c = true -> bufsz c < npos c /\ size_range c = npos c + 1 /\ 2 * bufsz c < npos c.
Proof.
  intros H. unfold cfg_ok in H. apply andb_prop in H as [H1 H2]. apply andb_prop in H1 as [_ H1].
  change (2^32 - 1) with 4294967295 in H2. change (2^64 - 1) with 18446744073709551615 in H2. unfold size_range. lia.
Qed.

Lemma size_loop_ok c : cfg_ok c = true -> forall bufs total, total <= bufsz c -> Forall (fun b => blen b < size_range c) bufs ->
  size_loop c total bufs = if total + total_len bufs <=? bufsz c then total + total_len bufs else npos c.
Proof.
  intros HC. destruct (size_range_facts c HC) as (S1 & S2 & S3).
  induction bufs as [|b bs IH]; intros total Ht F; cbn [size_loop total_len].
  - rewrite N.add_0_r. destruct (N.leb_spec total (bufsz c)); [reflexivity|lia].
  - inversion F as [|? ? Fb Fs]; subst. destruct (bptr b) as [m|].
    2:{ rewrite IH by assumption. reflexivity. }
    destruct (N.ltb_spec (total + blen b) (size_range c)) as [Hw|Hw].
    + rewrite N.mod_small by assumption.
      destruct (N.ltb_spec (total + blen b) total); [lia|]. cbn [orb].
      destruct (N.ltb_spec (bufsz c) (total + blen b)).
      * destruct (N.leb_spec (total + (blen b + total_len bs)) (bufsz c)); [lia|reflexivity].
      * rewrite IH by (assumption || lia). rewrite N.add_assoc. reflexivity.
    + assert (Hm : (total + blen b) mod size_range c = total + blen b - size_range c).
      { symmetry. apply N.mod_unique with (q := 1); lia. }
      rewrite Hm. destruct (N.ltb_spec (total + blen b - size_range c) total); [|lia]. cbn [orb].
      destruct (N.leb_spec (total + (blen b + total_len bs)) (bufsz c)); [lia|reflexivity].
Qed.

Lemma append_all_ok : forall bufs msg, Forall readable bufs -> append_all msg bufs = Ok (msg ++ concat (map buf_bytes bufs)).
Proof.
  induction bufs as [|b bs IH]; intros msg F; cbn [append_all map concat].
  - rewrite app_nil_r. reflexivity.
  - inversion F as [|? ? Fb Fs]; subst. unfold readable in Fb. unfold buf_bytes at 1. destruct (bptr b) as [m|].
    + rewrite fetch_ok by (rewrite N.add_0_l; assumption). rewrite dropN_0. cbn [bind]. rewrite IH by assumption.
      rewrite app_assoc. reflexivity.
    + rewrite IH by assumption. reflexivity.
Qed.

Lemma total_len_bytes bufs : Forall readable bufs -> total_len bufs = lenN (concat (map buf_bytes bufs)).
Proof.
  induction 1 as [|b bs Fb Fs IH]; [reflexivity|]. cbn [total_len map concat]. rewrite lenN_app, IH. f_equal.
  unfold readable, buf_bytes in *. destruct (bptr b); [rewrite lenN_takeN; lia|reflexivity].
Qed.

Lemma pack_array_ok c bufs : cfg_ok c = true -> Forall readable bufs -> Forall (fun b => blen b < size_range c) bufs ->
  pack_array c (Some bufs) false =
    (let body := concat (map buf_bytes bufs) in
     Ok (if fits c body then (true, match body with [] => [] | _ => frame c body end) else (false, []))).
Proof.
  intros HC F1 F2. destruct (size_range_facts c HC) as (S1 & S2 & S3). destruct (cfg_ok_facts c HC) as (C1 & C2 & C3 & C4).
  unfold pack_array, msg_size_check. rewrite size_loop_ok by assumption. rewrite (total_len_bytes _ F1).
  set (body := concat (map buf_bytes bufs)). unfold fits.
  assert (HH : head_len c < head_range c) by (unfold head_range, head_len; destruct (huge c); vm_compute; reflexivity).
  destruct (N.leb_spec (head_len c + lenN body) (bufsz c)) as [Hl|Hl].
  2:{ rewrite N.eqb_refl. reflexivity. }
  destruct (N.eqb_spec (head_len c + lenN body) (npos c)); [lia|]. cbn [andb].
  destruct (N.ltb_spec (head_len c) (head_len c + lenN body)) as [Hn|Hn].
  - destruct (N.ltb_spec (head_len c + lenN body) (head_range c)) as [Hr|Hr].
    + rewrite N.mod_small by assumption. rewrite N.eqb_refl. cbn [negb].
      rewrite append_all_ok by assumption. cbn [bind]. fold body. destruct body; [rewrite lenN_nil in Hn; lia|reflexivity].
    + destruct (N.eqb_spec ((head_len c + lenN body) mod head_range c) (head_len c + lenN body)) as [E|E]; [|reflexivity].
      pose proof (N.mod_upper_bound (head_len c + lenN body) (head_range c)) as U. lia.
  - assert (E : body = []) by (apply lenN_0; lia). rewrite E. rewrite lenN_nil, N.add_0_r.
    destruct (N.ltb_spec (head_len c) (head_range c)); [reflexivity|lia].
Qed.

Lemma pack_array_native c bufs : cfg_ok c = true -> Forall readable bufs -> Forall (fun b => blen b < size_range c) bufs ->
  pack_array c (Some bufs) true =
    (let body := concat (map buf_bytes bufs) in Ok (if lenN body <=? bufsz c then (true, body) else (false, []))).
Proof.
  intros HC F1 F2. destruct (size_range_facts c HC) as (S1 & S2 & S3).
  unfold pack_array, msg_size_check. rewrite size_loop_ok by (assumption || lia). rewrite (total_len_bytes _ F1).
  cbv zeta. set (body := concat (map buf_bytes bufs)). rewrite N.add_0_l.
  destruct (N.leb_spec (lenN body) (bufsz c)) as [Hl|Hl].
  2:{ rewrite N.eqb_refl. reflexivity. }
  destruct (N.eqb_spec (lenN body) (npos c)); [lia|].
  destruct (N.ltb_spec 0 (lenN body)) as [Hn|Hn].
  - rewrite append_all_ok by assumption. reflexivity.
  - assert (E : body = []) by (apply lenN_0; lia). rewrite E. reflexivity.
Qed.

Lemma size_in_byte_gen c : 0 < size_range c -> forall items acc, acc < size_range c ->
  fold_left (fun acc (i : list byte) => (acc + lenN i) mod size_range c) items acc = (acc + lenN (concat items)) mod size_range c.
Proof.
  intros HP. induction items as [|i is IH]; intros acc Ha; cbn [fold_left concat].
  - rewrite lenN_nil, N.add_0_r. rewrite N.mod_small by assumption. reflexivity.
  - rewrite IH by (apply N.mod_upper_bound; lia). rewrite lenN_app. rewrite N.add_mod_idemp_l by lia. f_equal. lia.
Qed.
Lemma size_in_byte_ok c items : cfg_ok c = true -> lenN (concat items) < size_range c -> size_in_byte c items = lenN (concat items).
Proof.
  intros HC H. destruct (size_range_facts c HC) as (S1 & S2 & S3). unfold size_in_byte.
  rewrite size_in_byte_gen by lia. rewrite N.add_0_l. apply N.mod_small. assumption.
Qed.

Lemma opt_item_concat l : concat (opt_item l) = l.
Proof. destruct l; [reflexivity|]. cbn. rewrite app_nil_r. reflexivity. Qed.

Lemma pack_header_ok c nd n : cfg_ok c = true -> n <= max_body c -> head_len c + n < head_range c -> pack_header c nd n = Ok (head_image c (head_len c + n)).
Proof.
  intros HC Hn Hr. destruct (cfg_ok_facts c HC) as (C1 & C2 & C3 & C4). unfold max_body in Hn. unfold pack_header.
  destruct (head_len_cases c) as [Hh|Hh].
  all: rewrite N.mod_small by lia; rewrite N.eqb_refl;
    destruct (N.ltb_spec n (bufsz c)); [|lia]; destruct (N.leb_spec (head_len c + n) (bufsz c)); [|lia]; cbn [andb negb]; rewrite andb_false_r; reflexivity.
Qed.

Lemma fits_max c body : cfg_ok c = true -> bufsz c < head_range c -> fits c body = negb (max_body c <? lenN body).
Proof. intros HC Hr. destruct (cfg_ok_facts c HC) as (C1 & C2 & C3 & C4). unfold fits, max_body. lia. Qed.

Lemma send_msg_ok c nd x : cfg_ok c = true -> bufsz c < head_range c -> arg_ok c x ->
  exists ok items, send_msg c nd true x = Ok (ok, items) /\
    (if fits c (arg_body x) then ok = true /\ (concat items = frame c (arg_body x) \/ (concat items = [] /\ arg_body x = [] /\ exists bs, x = AArray bs))
     else items = []) /\
    (ok = true \/ fits c (arg_body x) = false).
Proof.
  intros HC Hr HA. destruct (size_range_facts c HC) as (S1 & S2 & S3).
  unfold send_msg, send_items. cbn [negb].
  destruct x as [[bs|]|m|m1 m2|ms]; cbn [arg_ok arg_body] in *.
  - destruct HA as [F1 F2]. rewrite pack_array_ok by assumption. cbv zeta.
    set (body := concat (map buf_bytes bs)). destruct (fits c body) eqn:E; cbn [bind].
    + do 2 eexists. split; [reflexivity|]. split; [|left; reflexivity]. split; [reflexivity|].
      destruct body as [|y l] eqn:Eb; [right; split; [reflexivity|split; [reflexivity|eauto]]|]. left.
      unfold opt_item. destruct (frame c (y :: l)) as [|z r] eqn:Ef; [apply (f_equal (@lenN byte)) in Ef; rewrite lenN_frame in Ef; destruct (head_len_cases c) as [Hh|Hh]; rewrite Hh in Ef; change (lenN (@nil byte)) with 0 in Ef; lia|].
      cbn. rewrite app_nil_r. reflexivity.
    + do 2 eexists. split; [reflexivity|]. split; [reflexivity|right; reflexivity].
  - contradiction.
  - unfold pack_one. rewrite fits_max by assumption. destruct (N.ltb_spec (max_body c) (lenN m)); cbn [bind negb].
    + do 2 eexists. split; [reflexivity|]. split; auto.
    + rewrite pack_header_ok by (assumption || unfold max_body in *; destruct (cfg_ok_facts c HC) as (C1 & C2 & C3 & C4); lia). cbn [bind]. do 2 eexists. split; [reflexivity|]. split; [|auto]. split; [reflexivity|]. left. cbn. rewrite app_nil_r. reflexivity.
  - unfold pack_two. rewrite lenN_app in HA. rewrite N.mod_small by assumption. rewrite <- lenN_app. rewrite fits_max by assumption.
    destruct (N.ltb_spec (max_body c) (lenN (m1 ++ m2))); cbn [bind negb].
    + do 2 eexists. split; [reflexivity|]. split; auto.
    + rewrite pack_header_ok by (assumption || unfold max_body in *; destruct (cfg_ok_facts c HC) as (C1 & C2 & C3 & C4); lia). cbn [bind]. do 2 eexists. split; [reflexivity|]. split; [|auto]. split; [reflexivity|]. left. cbn. rewrite app_nil_r. reflexivity.
  - unfold pack_many. rewrite size_in_byte_ok by assumption. rewrite fits_max by assumption.
    destruct (N.ltb_spec (max_body c) (lenN (concat ms))); cbn [bind negb].
    + do 2 eexists. split; [reflexivity|]. split; auto.
    + rewrite pack_header_ok by (assumption || unfold max_body in *; destruct (cfg_ok_facts c HC) as (C1 & C2 & C3 & C4); lia). cbn [bind]. do 2 eexists. split; [reflexivity|]. split; [|auto]. split; [reflexivity|]. left. reflexivity.
Qed.

Lemma refused c nd x : cfg_ok c = true -> bufsz c < head_range c -> arg_ok c x -> (forall bs, x <> AArray bs) ->
  fits c (arg_body x) = false -> send_msg c nd true x = Ok (false, []).
Proof.
  intros HC HR HX HA HF. rewrite fits_max in HF by assumption.
  unfold send_msg, send_items, pack_one, pack_two, pack_many. cbn [negb].
  destruct x as [bs|m|m1 m2|ms]; cbn [arg_ok arg_body] in *; [destruct (HA bs eq_refl)|..].
  - destruct (max_body c <? lenN m); [reflexivity|discriminate].
  - rewrite lenN_app in *. rewrite N.mod_small by assumption. destruct (max_body c <? lenN m1 + lenN m2); [reflexivity|discriminate].
  - rewrite size_in_byte_ok by assumption. destruct (max_body c <? lenN (concat ms)); [reflexivity|discriminate].
Qed.

(** a fitting non-empty body is sent as its frame, by every overload and in every configuration *)
Lemma send_fits c nd x : cfg_ok c = true -> arg_ok c x -> fits c (arg_body x) = true -> arg_body x <> [] ->
  exists items, send_msg c nd true x = Ok (true, items) /\ concat items = frame c (arg_body x).
Proof.
  intros HC HA HF HN. destruct (size_range_facts c HC) as (S1 & S2 & S3).
  assert (HM : lenN (arg_body x) <= max_body c /\ head_len c + lenN (arg_body x) < head_range c).
  { unfold fits in HF. unfold max_body. lia. }
  destruct HM as [HM1 HM2].
  unfold send_msg, send_items. cbn [negb].
  destruct x as [[bs|]|m|m1 m2|ms]; cbn [arg_ok arg_body] in *.
  - destruct HA as [F1 F2]. rewrite pack_array_ok by assumption. cbv zeta. rewrite HF. cbn [bind].
    eexists. split; [reflexivity|]. rewrite opt_item_concat. destruct (concat (map buf_bytes bs)); [contradiction|reflexivity].
  - contradiction.
  - unfold pack_one. destruct (N.ltb_spec (max_body c) (lenN m)); [lia|]. rewrite pack_header_ok by assumption. cbn [bind].
    eexists. split; [reflexivity|]. cbn. rewrite app_nil_r. reflexivity.
  - unfold pack_two. rewrite lenN_app in HA. rewrite N.mod_small by assumption. rewrite <- lenN_app.
    destruct (N.ltb_spec (max_body c) (lenN (m1 ++ m2))); [lia|]. rewrite pack_header_ok by assumption. cbn [bind].
    eexists. split; [reflexivity|]. cbn. rewrite app_nil_r. reflexivity.
  - unfold pack_many. rewrite size_in_byte_ok by assumption.
    destruct (N.ltb_spec (max_body c) (lenN (concat ms))); [lia|]. rewrite pack_header_ok by assumption. cbn [bind].
    eexists. split; [reflexivity|]. reflexivity.
Qed.

Lemma fits_nil c : cfg_ok c = true -> fits c [] = true.
Proof.
  intros HC. destruct (cfg_ok_facts c HC) as (C1 & C2 & C3 & C4). unfold fits. rewrite lenN_nil, N.add_0_r.
  assert (HH : head_len c < head_range c) by (unfold head_range, head_len; destruct (huge c); vm_compute; reflexivity). lia.
Qed.

Lemma tx_wire_ok c nd : cfg_ok c = true -> bufsz c < head_range c -> forall ts, Forall (tx_ok c) ts ->
  exists bodies, tx_wire (send_msg c nd true) (pack_heartbeat c nd) ts = Ok (wire c bodies) /\ forallb (fits c) bodies = true /\
    filter nonempty bodies = filter nonempty (filter (fits c) (map tx_body ts)).
Proof.
  intros HC Hr. induction ts as [|t ts IH]; intros F.
  - exists []. auto.
  - inversion F as [|? ? Ft Fs]; subst. destruct (IH Fs) as (bs & E & Fb & Hf). cbn [tx_wire map filter].
    destruct t as [x|]; cbn [tx_items tx_body tx_ok] in *.
    + destruct (send_msg_ok c nd x HC Hr Ft) as (ok & items & E1 & E2 & _). rewrite E1. cbn [bind]. rewrite E. cbn [bind].
      destruct (fits c (arg_body x)) eqn:Ef.
      * destruct E2 as (_ & [E2|(E2 & E3 & _)]).
        -- exists (arg_body x :: bs). rewrite E2. cbn [forallb filter]. rewrite Ef, Fb. split; [reflexivity|]. split; [reflexivity|].
           destruct (nonempty (arg_body x)); [f_equal|]; assumption.
        -- exists bs. rewrite E2, E3. cbn [filter nonempty]. auto.
      * subst items. exists bs. auto.
    + destruct (cfg_ok_facts c HC) as (C1 & C2 & C3 & C4).
      assert (EH : pack_heartbeat c nd = Ok (head_image c (head_len c + 0))) by (apply pack_header_ok; [assumption|lia|lia]).
      rewrite EH in E |- *. cbn [bind]. rewrite E. cbn [bind].
      exists ([] :: bs). cbn [forallb filter nonempty]. rewrite (fits_nil c HC), Fb. split; [|split; [reflexivity|assumption]].
      reflexivity.
Qed.

(** prefix/suffix *)

Definition aroom (c : cfg) (a : affix) (b : list byte) : bool := lenN (amsg a b) <=? bufsz c.

Lemma amsg_len a b : lenN (amsg a b) = lenN (prefix a) + lenN (suffix a) + lenN b.
Proof. unfold amsg. rewrite !lenN_app. lia. Qed.

Lemma ps_send_ok c a x : cfg_ok c = true -> affix_ok c a = true -> arg_ok c x ->
  lenN (arg_body x) + lenN (prefix a) + lenN (suffix a) < size_range c \/ (exists bs, x = AArray bs) ->
  exists ok items, ps_send_msg c a true x = Ok (ok, items) /\
    (if aroom c a (arg_body x) then ok = true /\ (concat items = amsg a (arg_body x) \/ (concat items = [] /\ arg_body x = [])) else items = []).
Proof.
  intros HC HA HX HS. destruct (size_range_facts c HC) as (S1 & S2 & S3). unfold aroom. rewrite amsg_len.
  unfold affix_ok in HA. apply andb_prop in HA as [HA1 HA2].
  unfold ps_send_msg, send_items. cbn [negb].
  destruct x as [[bs|]|m|m1 m2|ms]; cbn [arg_ok arg_body] in *.
  - destruct HX as [F1 F2]. unfold ps_pack_array, msg_size_check. rewrite size_loop_ok by (assumption || lia). rewrite (total_len_bytes _ F1).
    set (body := concat (map buf_bytes bs)) in *.
    destruct (N.leb_spec (lenN (prefix a) + lenN (suffix a) + lenN body) (bufsz c)).
    + destruct (N.eqb_spec (lenN (prefix a) + lenN (suffix a) + lenN body) (npos c)); [lia|].
      destruct (N.ltb_spec (lenN (prefix a) + lenN (suffix a)) (lenN (prefix a) + lenN (suffix a) + lenN body)).
      * rewrite append_all_ok by assumption. cbn [bind]. do 2 eexists. split; [reflexivity|]. split; [reflexivity|]. left.
        rewrite opt_item_concat. fold body. unfold amsg. rewrite app_assoc. reflexivity.
      * assert (E : body = []) by (apply lenN_0; lia). cbn [bind]. do 2 eexists. split; [reflexivity|]. split; [reflexivity|]. right. split; [reflexivity|assumption].
    + rewrite N.eqb_refl. cbn [bind]. do 2 eexists. split; reflexivity.
  - contradiction.
  - destruct HS as [HS|[? HS]]; [|discriminate]. unfold ps_pack_one. rewrite N.mod_small by lia.
    replace (lenN (prefix a) + lenN m + lenN (suffix a)) with (lenN (prefix a) + lenN (suffix a) + lenN m) by lia.
    rewrite N.ltb_antisym. destruct (lenN (prefix a) + lenN (suffix a) + lenN m <=? bufsz c); cbn [negb bind].
    + do 2 eexists. split; [reflexivity|]. split; [reflexivity|]. left. rewrite !concat_app, !opt_item_concat. cbn. rewrite app_nil_r. reflexivity.
    + do 2 eexists. split; reflexivity.
  - destruct HS as [HS|[? HS]]; [|discriminate]. rewrite lenN_app in *. unfold ps_pack_two. rewrite N.mod_small by lia.
    replace (lenN (prefix a) + lenN m1 + lenN m2 + lenN (suffix a)) with (lenN (prefix a) + lenN (suffix a) + (lenN m1 + lenN m2)) by lia.
    rewrite N.ltb_antisym. destruct (lenN (prefix a) + lenN (suffix a) + (lenN m1 + lenN m2) <=? bufsz c); cbn [negb bind].
    + do 2 eexists. split; [reflexivity|]. split; [reflexivity|]. left. rewrite !concat_app, !opt_item_concat. cbn. rewrite app_nil_r. unfold amsg. rewrite <- app_assoc. reflexivity.
    + do 2 eexists. split; reflexivity.
  - destruct HS as [HS|[? HS]]; [|discriminate]. unfold ps_pack_many. rewrite size_in_byte_ok by assumption. rewrite N.mod_small by lia.
    rewrite N.ltb_antisym. destruct (lenN (prefix a) + lenN (suffix a) + lenN (concat ms) <=? bufsz c); cbn [negb bind].
    + do 2 eexists. split; [reflexivity|]. split; [reflexivity|]. left. rewrite !concat_app, !opt_item_concat. reflexivity.
    + do 2 eexists. split; reflexivity.
Qed.

(** fixed length *)
Lemma fx_send_ok c x : cfg_ok c = true -> arg_ok c x -> lenN (arg_body x) <= bufsz c ->
  exists items, fx_send_msg c true x = Ok (true, items) /\ concat items = arg_body x.
Proof.
  intros HC HX HL. unfold fx_send_msg, send_items. cbn [negb].
  destruct x as [[bs|]|m|m1 m2|ms]; cbn [arg_ok arg_body] in *.
  - destruct HX as [F1 F2]. unfold fx_pack_array. rewrite pack_array_native by assumption. cbv zeta.
    destruct (N.leb_spec (lenN (concat (map buf_bytes bs))) (bufsz c)); [|lia]. cbn [bind]. eexists. split; [reflexivity|]. apply opt_item_concat.
  - contradiction.
  - eexists. split; [reflexivity|]. cbn. apply app_nil_r.
  - eexists. split; [reflexivity|]. cbn. rewrite app_nil_r. reflexivity.
  - eexists. split; reflexivity.
Qed.

Lemma frame_raw c b : cfg_ok c = true -> lenN (frame c b) < size_range c ->
  fetch (frame c b) (head_len c) ((lenN (frame c b) + size_range c - head_len c) mod size_range c) = Ok b.
Proof.
  intros HC HL. rewrite lenN_frame in *. destruct (size_range_facts c HC) as (S1 & S2 & S3).
  assert (E : (head_len c + lenN b + size_range c - head_len c) mod size_range c = lenN b).
  { replace (head_len c + lenN b + size_range c - head_len c) with (lenN b + 1 * size_range c) by lia. rewrite N.mod_add by lia. apply N.mod_small. lia. }
  rewrite E. rewrite fetch_ok by (rewrite lenN_frame; lia). unfold frame. rewrite app_drop_eq by (unfold lenN; rewrite be_encode_len; lia).
  rewrite takeN_all by lia. reflexivity.
Qed.
Lemma affix_raw c a b : cfg_ok c = true -> lenN (amsg a b) < size_range c -> ps_packed_raw_data c a (amsg a b) = Ok b.
Proof.
  intros HC HL. rewrite amsg_len in *. destruct (size_range_facts c HC) as (S1 & S2 & S3). unfold ps_packed_raw_data. rewrite amsg_len.
  assert (E : (lenN (prefix a) + lenN (suffix a) + lenN b + 2 * size_range c - lenN (prefix a) - lenN (suffix a)) mod size_range c = lenN b).
  { replace (lenN (prefix a) + lenN (suffix a) + lenN b + 2 * size_range c - lenN (prefix a) - lenN (suffix a)) with (lenN b + 2 * size_range c) by lia. rewrite N.mod_add by lia. apply N.mod_small. lia. }
  rewrite E. rewrite fetch_ok by (rewrite amsg_len; lia). unfold amsg. rewrite app_drop_eq by reflexivity. rewrite app_take_eq by reflexivity. reflexivity.
Qed.

(** end to end *)
Lemma ps_tx_wire_ok c a : cfg_ok c = true -> affix_ok c a = true -> forall ts,
  Forall (tx_ok c) ts -> Forall (fun t => lenN (amsg a (tx_body t)) < size_range c) ts ->
  exists bodies, tx_wire (ps_send_msg c a true) (Ok (ps_pack_heartbeat a)) ts = Ok (awire a bodies) /\
    Forall (fun b => In b (map tx_body ts) /\ lenN (amsg a b) <= bufsz c) bodies /\
    filter nonempty bodies = filter nonempty (filter (fun b => lenN (amsg a b) <=? bufsz c) (map tx_body ts)).
Proof.
  intros HC HA. assert (HH : lenN (amsg a []) <= bufsz c).
  { rewrite amsg_len, lenN_nil. unfold affix_ok in HA. lia. }
  induction ts as [|t ts IH]; intros F G.
  - exists []. auto.
  - inversion F as [|? ? Ft Fs]; subst. inversion G as [|? ? Gt Gs]; subst.
    destruct (IH Fs Gs) as (bs & E & Fb & Hf). cbn [tx_wire map filter].
    assert (Fb' : Forall (fun b => In b (tx_body t :: map tx_body ts) /\ lenN (amsg a b) <= bufsz c) bs).
    { eapply Forall_impl; [|exact Fb]. cbv beta. intros b (B1 & B2). split; [right; assumption|assumption]. }
    destruct t as [x|]; cbn [tx_items tx_body tx_ok] in *.
    + destruct (ps_send_ok c a x HC HA Ft) as (ok & items & E1 & E2).
      { left. rewrite amsg_len in Gt. lia. }
      rewrite E1. cbn [bind]. rewrite E. cbn [bind]. unfold aroom in E2.
      destruct (N.leb_spec (lenN (amsg a (arg_body x))) (bufsz c)) as [Ef|Ef].
      * destruct E2 as (_ & [E2|[E2 E3]]).
        -- exists (arg_body x :: bs). rewrite E2. split; [reflexivity|]. split; [constructor; [split; [left; reflexivity|assumption]|assumption]|].
           cbn [filter]. destruct (nonempty (arg_body x)); [f_equal|]; assumption.
        -- exists bs. rewrite E2, E3. cbn [filter nonempty]. split; [reflexivity|]. split; [|assumption]. rewrite E3 in Fb'. assumption.
      * subst items. exists bs. auto.
    + cbn [bind]. rewrite E. cbn [bind]. exists ([] :: bs). split; [cbn [concat]; rewrite app_nil_r; reflexivity|]. split; [constructor; [split; [left; reflexivity|assumption]|assumption]|].
      destruct (N.leb_spec (lenN (amsg a [])) (bufsz c)); [|lia]. assumption.
Qed.

Lemma fx_tx_wire_ok c hb : cfg_ok c = true -> forall xs,
  Forall (arg_ok c) xs -> Forall (fun x => lenN (arg_body x) <= bufsz c) xs ->
  tx_wire (fx_send_msg c true) hb (map Send xs) = Ok (concat (map arg_body xs)).
Proof.
  intros HC. induction xs as [|x xs IH]; intros F G; [reflexivity|].
  inversion F; subst. inversion G; subst. cbn [map tx_wire tx_items concat].
  destruct (fx_send_ok c x HC) as (items & E1 & E2); [assumption..|]. rewrite E1. cbn [bind]. rewrite IH by assumption. cbn [bind].
  rewrite E2. reflexivity.
Qed.

(** cutting a stream of pieces of length n gives back the pieces *)
Lemma same_cut n : 0 < n -> forall ms ms' tail, Forall (fun m : list byte => lenN m = n) ms -> Forall (fun m => lenN m = n) ms' -> lenN tail < n ->
  concat ms' ++ tail = concat ms -> ms' = ms /\ tail = [].
Proof.
  intros Hn. induction ms as [|m ms IH]; intros ms' tail F F' HT E.
  - cbn in E. apply app_eq_nil in E as [E1 E2]. split; [|assumption]. destruct ms' as [|m' ms']; [reflexivity|].
    inversion F'; subst. cbn in E1. apply app_eq_nil in E1 as [E1 _]. subst m'. change (lenN (@nil byte)) with 0 in Hn. lia.
  - inversion F as [|? ? Fm Fs]; subst. destruct ms' as [|m' ms'].
    + cbn [concat app] in E. subst tail. rewrite lenN_app in HT. lia.
    + inversion F' as [|? ? Fm' Fs']; subst. cbn [concat] in E. rewrite <- app_assoc in E.
      assert (E1 : m' = m).
      { apply (f_equal (takeN (lenN m))) in E. rewrite !app_take_eq in E by congruence. assumption. }
      subst m'. apply app_inv_head in E. destruct (IH ms' tail Fs Fs' HT E). split; congruence.
Qed.
