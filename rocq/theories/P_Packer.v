(** Properties of packing and of packing followed by unpacking (C11-C14, C16, C62, C63). *)
From Coq Require Import List NArith Bool Lia ZifyBool ZifyNat ZifyN.
From Verif Require Import M_Bytes M_Config M_Rx M_Unpacker M_Flex M_NonCopy M_PrefixSuffix M_Simple M_Packer S_Frame S_Rx S_Affix S_Packer.
From Verif Require L_Bytes L_Frame L_Packer L_Affix P_Unpacker P_PrefixSuffix P_Simple.
Import ListNotations.
Open Scope N_scope.

Local Ltac all_of := repeat match goal with |- _ /\ _ => split | |- Forall _ (_ :: _) => apply Forall_cons | |- Forall _ [] => apply Forall_nil end.

(** C14: the size of a list of buffers is computed exactly, even if the machine sum would wrap *)
Theorem C14_size_check_exact : forall c pre bufs,
  cfg_ok c = true -> pre <= bufsz c -> Forall (fun b => blen b < size_range c) bufs ->
  msg_size_check c pre (Some bufs) = (if pre + total_len bufs <=? bufsz c then pre + total_len bufs else npos c) /\
  bufsz c < npos c.
Proof.
  intros c pre bufs HC HP F. split; [exact (L_Packer.size_loop_ok c HC bufs pre HP F)|].
  exact (proj1 (L_Packer.size_range_facts c HC)).
Qed.

(** lengths whose 64-bit sum is 2^64, that is 0 *)
Definition wrap_bufs : list buf := [mk_buf (Some [Byte.x61]) 1; mk_buf None 77; mk_buf (Some []) (2^64 - 2); mk_buf (Some []) 1].
Example C14_example : cfg_ok default_cfg = true /\ 2 <= bufsz default_cfg /\
  Forall (fun b => blen b < size_range default_cfg) wrap_bufs /\ total_len wrap_bufs = 2^64 /\
  msg_size_check default_cfg 2 (Some wrap_bufs) = 2^64 - 1 /\
  msg_size_check default_cfg 2 (Some [mk_buf (Some [Byte.x61]) 1; mk_buf None 77]) = 3.
Proof. unfold wrap_bufs at 1. all_of; vm_compute; (exact I || congruence). Qed.
Print Assumptions C14_size_check_exact.

(** C11: the array form of packing, framed and native *)
Theorem C11_pack_array_exact : forall c bufs,
  cfg_ok c = true -> Forall readable bufs -> Forall (fun b => blen b < size_range c) bufs ->
  let body := concat (map buf_bytes bufs) in
  pack_array c (Some bufs) false = Ok (if fits c body then (true, match body with [] => [] | _ => frame c body end) else (false, [])) /\
  pack_array c (Some bufs) true = Ok (if lenN body <=? bufsz c then (true, body) else (false, [])).
Proof. intros c bufs HC F1 F2. split; [exact (L_Packer.pack_array_ok c bufs HC F1 F2)|exact (L_Packer.pack_array_native c bufs HC F1 F2)]. Qed.

Definition ex_c : cfg := mk_cfg 9 false true (2^64 - 1).
Definition ex_bufs : list buf := [mk_buf (Some [Byte.x61; Byte.x62; Byte.x63]) 2; mk_buf None 5; mk_buf (Some [Byte.x64]) 1].
Example C11_example : cfg_ok ex_c = true /\ Forall readable ex_bufs /\ Forall (fun b => blen b < size_range ex_c) ex_bufs /\
  pack_array ex_c (Some ex_bufs) false = Ok (true, [Byte.x00; Byte.x05; Byte.x61; Byte.x62; Byte.x64]) /\
  pack_array ex_c (Some ex_bufs) true = Ok (true, [Byte.x61; Byte.x62; Byte.x64]) /\
  pack_array ex_c (Some (ex_bufs ++ ex_bufs ++ ex_bufs)) false = Ok (false, []).
Proof. unfold ex_bufs. all_of; vm_compute; (exact I || congruence). Qed.
Print Assumptions C11_pack_array_exact.

(** the same for prefix_suffix_packer and fixed_length_packer *)
Theorem C11_ps_pack_array_exact : forall c a bufs native,
  cfg_ok c = true -> lenN (prefix a) + lenN (suffix a) <= bufsz c -> Forall readable bufs -> Forall (fun b => blen b < size_range c) bufs ->
  let body := concat (map buf_bytes bufs) in
  ps_pack_array c a (Some bufs) native =
    (let msg := if native then body else amsg a body in
     Ok (if lenN msg <=? bufsz c then (true, match body with [] => [] | _ => msg end) else (false, []))) /\
  fx_pack_array c (Some bufs) native = Ok (if lenN body <=? bufsz c then (true, body) else (false, [])).
Proof.
  intros c a bufs native HC HA F1 F2 body. destruct (L_Packer.size_range_facts c HC) as (S1 & S2 & S3). split; [|exact (L_Packer.pack_array_native c bufs HC F1 F2)].
  unfold ps_pack_array, msg_size_check. set (pre := if native then 0 else lenN (prefix a) + lenN (suffix a)). assert (PB : pre <= bufsz c) by (subst pre; destruct native; lia).
  rewrite L_Packer.size_loop_ok by assumption. rewrite (L_Packer.total_len_bytes _ F1). fold body. cbv zeta.
  assert (E : lenN (if native then body else amsg a body) = pre + lenN body) by (subst pre; destruct native; [reflexivity|apply L_Packer.amsg_len]). rewrite E.
  destruct (N.leb_spec (pre + lenN body) (bufsz c)); [|rewrite N.eqb_refl; reflexivity].
  destruct (N.eqb_spec (pre + lenN body) (npos c)); [lia|]. destruct (N.ltb_spec pre (pre + lenN body)).
  - rewrite L_Packer.append_all_ok by assumption. fold body. cbn [bind]. destruct body as [|x body]; [cbn in *; lia|]. destruct native; [rewrite app_nil_r; reflexivity|].
    unfold amsg. rewrite app_assoc. reflexivity.
  - assert (B : body = []) by (apply L_Bytes.lenN_0; lia). rewrite B. reflexivity.
Qed.
Definition ex_aff : affix := mk_affix [Byte.x28] [Byte.x29; Byte.x0a].
Example C11_ps_example : lenN (prefix ex_aff) + lenN (suffix ex_aff) <= bufsz ex_c /\
  ps_pack_array ex_c ex_aff (Some ex_bufs) false = Ok (true, [Byte.x28; Byte.x61; Byte.x62; Byte.x64; Byte.x29; Byte.x0a]) /\
  ps_pack_array ex_c ex_aff (Some ex_bufs) true = Ok (true, [Byte.x61; Byte.x62; Byte.x64]) /\
  ps_pack_array ex_c ex_aff (Some (ex_bufs ++ ex_bufs ++ ex_bufs)) false = Ok (false, []).
Proof. all_of; vm_compute; (exact I || congruence). Qed.
Print Assumptions C11_ps_pack_array_exact.

(** C12: two calls that stand for the same non-empty fitting body put the same bytes on the wire *)
Theorem C12_overloads_agree : forall c nd1 nd2 x y,
  cfg_ok c = true -> arg_ok c x -> arg_ok c y ->
  arg_body x = arg_body y -> arg_body x <> [] -> fits c (arg_body x) = true ->
  exists ix iy, send_msg c nd1 true x = Ok (true, ix) /\ send_msg c nd2 true y = Ok (true, iy) /\
    concat ix = concat iy /\ concat ix = frame c (arg_body x).
Proof.
  intros c nd1 nd2 x y HC HX HY E HN HF.
  destruct (L_Packer.send_fits c nd1 x HC HX HF HN) as (ix & E1 & E2).
  rewrite E in HF, HN. destruct (L_Packer.send_fits c nd2 y HC HY HF HN) as (iy & E3 & E4).
  exists ix, iy. repeat split; congruence.
Qed.
Definition ex_args : list arg :=
  [AArray (Some ex_bufs); AOne [Byte.x61; Byte.x62; Byte.x64]; ATwo [Byte.x61] [Byte.x62; Byte.x64]; AMany [[]; [Byte.x61; Byte.x62]; [Byte.x64]]].
Lemma ex_args_ok : Forall (arg_ok ex_c) ex_args.
Proof.
  unfold ex_args, ex_bufs. all_of; cbn [arg_ok]; all_of; vm_compute; (exact I || congruence).
Qed.
Example C12_example : Forall (arg_ok ex_c) ex_args /\
  map arg_body ex_args = repeat [Byte.x61; Byte.x62; Byte.x64] 4 /\ fits ex_c [Byte.x61; Byte.x62; Byte.x64] = true.
Proof. split; [exact ex_args_ok|]. split; reflexivity. Qed.
Print Assumptions C12_overloads_agree.

(** C13, the wanted statement: an accepted non-empty message leaves as a frame whose header tells its length *)
Definition C13_statement : Prop := forall c nd x items,
  cfg_ok c = true -> arg_ok c x -> arg_body x <> [] ->
  send_msg c nd true x = Ok (true, items) -> items <> [] ->
  be_decode (takeN (head_len c) (concat items)) = lenN (concat items).

Lemma big_body n : exists m : list byte, lenN m = n.
Proof. exists (repeat Byte.x61 (N.to_nat n)). unfold lenN. rewrite repeat_length. apply N2Nat.id. Qed.
(** It is false: with a buffer size above 65535 and 2-byte headers a body of 65534 bytes gets the header 0. *)
Theorem C13_refuted : exists c m items,
  cfg_ok c = true /\ arg_ok c (AOne m) /\ send_msg c true true (AOne m) = Ok (true, items) /\ lenN (concat items) = 65536 /\
  be_decode (takeN (head_len c) (concat items)) = 0.
Proof.
  destruct (big_body 65534) as [m Hm]. set (c := mk_cfg 70000 false true (2^64 - 1)).
  assert (E1 : (max_body c <? 65534) = false) by (vm_compute; reflexivity).
  exists c, m, [head_image c (2 + 65534); m].
  split; [vm_compute; reflexivity|]. split; [cbn [arg_ok arg_body]; rewrite Hm; vm_compute; reflexivity|].
  split; [|split].
  - unfold send_msg, send_items, pack_one, pack_header. rewrite Hm, E1. reflexivity.
  - cbn [concat]. rewrite app_nil_r, L_Bytes.lenN_app, Hm. vm_compute. reflexivity.
  - cbn [concat]. rewrite app_nil_r, L_Bytes.app_take_eq by reflexivity. vm_compute. reflexivity.
Qed.
Corollary C13_statement_refuted : ~ C13_statement.
Proof.
  intros H. destruct C13_refuted as (c & m & items & H1 & H2 & H3 & H4 & H5).
  assert (N1 : arg_body (AOne m) <> []).
  { cbn [arg_body]. intros E. subst m. unfold send_msg, send_items, pack_one, pack_header in H3.
    cbn [negb andb bind] in H3. destruct (max_body c <? lenN []); [discriminate|]. cbn [bind] in H3. inversion H3; subst items.
    unfold head_image in H4. cbn [concat] in H4. rewrite !L_Bytes.lenN_app in H4. unfold lenN in H4. rewrite L_Bytes.be_encode_len in H4.
    destruct (L_Frame.head_len_cases c) as [E|E]; rewrite E in H4; discriminate. }
  assert (N2 : items <> []) by (intros E; subst items; discriminate).
  specialize (H c true (AOne m) items H1 H2 N1 H3 N2). rewrite H4, H5 in H. discriminate.
Qed.

(** What holds: no truncation if every buffer size fits the header (the default), for all forms; and in every
    configuration for the array form, and for all forms in builds with assertions (they stop instead). *)
Theorem C13_header_exact_partial : forall c nd x items,
  cfg_ok c = true -> arg_ok c x -> arg_body x <> [] ->
  (bufsz c < head_range c \/ exists bs, x = AArray bs) ->
  send_msg c nd true x = Ok (true, items) -> items <> [] ->
  be_decode (takeN (head_len c) (concat items)) = lenN (concat items).
Proof.
  intros c nd x items HC HX HN HR E NE.
  assert (G : fits c (arg_body x) = true).
  { destruct HR as [HR|[bs ->]].
    - destruct (L_Packer.send_msg_ok c nd x HC HR HX) as (ok & it & E1 & E2 & _).
      destruct (fits c (arg_body x)); [reflexivity|]. congruence.
    - cbn [arg_ok arg_body] in *. destruct bs as [bs|]; [|contradiction]. destruct HX as [F1 F2].
      unfold send_msg, send_items in E. cbn [negb] in E. rewrite L_Packer.pack_array_ok in E by assumption. cbv zeta in E.
      destruct (fits c (concat (map buf_bytes bs))); [reflexivity|]. cbn [bind opt_item] in E. congruence. }
  destruct (L_Packer.send_fits c nd x HC HX G HN) as (it & E1 & E2).
  assert (it = items) by congruence. subst it. rewrite E2.
  pose proof (L_Frame.frame_hd c (arg_body x) [] G) as HH. rewrite app_nil_r in HH. unfold L_Frame.hd_val in HH. rewrite HH.
  rewrite L_Frame.lenN_frame. reflexivity.
Qed.
Example C13_example : cfg_ok default_cfg = true /\ bufsz default_cfg < head_range default_cfg /\
  send_msg default_cfg true true (AOne (repeat Byte.x61 300)) = Ok (true, [[Byte.x01; Byte.x2e]; repeat Byte.x61 300]).
Proof. all_of; vm_compute; (exact I || congruence). Qed.
(** in builds with assertions no form ever truncates, in any configuration *)
Theorem C13_debug_never_truncates : forall c x items,
  cfg_ok c = true -> arg_ok c x -> arg_body x <> [] ->
  send_msg c false true x = Ok (true, items) -> items <> [] ->
  be_decode (takeN (head_len c) (concat items)) = lenN (concat items).
Proof.
  intros c x items HC HX HN E NE.
  assert (G : bufsz c < head_range c \/ (exists bs, x = AArray bs) \/ fits c (arg_body x) = true).
  { destruct x as [bs|m|m1 m2|ms]; [right; left; eauto|right; right..]; cbn [arg_ok arg_body] in *;
      unfold send_msg, send_items, pack_one, pack_two, pack_many in E; cbn [negb] in E.
    - destruct (max_body c <? lenN m) eqn:EM; [discriminate|]. unfold pack_header in E. cbn [negb andb] in E.
      unfold fits. destruct (head_len c + lenN m <=? bufsz c) eqn:E1; [|rewrite andb_false_r in E; discriminate].
      destruct ((head_len c + lenN m) mod head_range c =? head_len c + lenN m) eqn:E2; [|rewrite !andb_false_r in E; discriminate].
      pose proof (N.mod_upper_bound (head_len c + lenN m) (head_range c)). destruct (L_Frame.head_range_cases c); lia.
    - rewrite L_Bytes.lenN_app in *. rewrite N.mod_small in E by assumption.
      destruct (max_body c <? lenN m1 + lenN m2) eqn:EM; [discriminate|]. unfold pack_header in E. cbn [negb andb] in E.
      unfold fits. rewrite L_Bytes.lenN_app. destruct (head_len c + (lenN m1 + lenN m2) <=? bufsz c) eqn:E1; [|rewrite andb_false_r in E; discriminate].
      destruct ((head_len c + (lenN m1 + lenN m2)) mod head_range c =? head_len c + (lenN m1 + lenN m2)) eqn:E2; [|rewrite !andb_false_r in E; discriminate].
      pose proof (N.mod_upper_bound (head_len c + (lenN m1 + lenN m2)) (head_range c)). destruct (L_Frame.head_range_cases c); lia.
    - rewrite L_Packer.size_in_byte_ok in E by assumption.
      destruct (max_body c <? lenN (concat ms)) eqn:EM; [discriminate|]. unfold pack_header in E. cbn [negb andb] in E.
      unfold fits. destruct (head_len c + lenN (concat ms) <=? bufsz c) eqn:E1; [|rewrite andb_false_r in E; discriminate].
      destruct ((head_len c + lenN (concat ms)) mod head_range c =? head_len c + lenN (concat ms)) eqn:E2; [|rewrite !andb_false_r in E; discriminate].
      pose proof (N.mod_upper_bound (head_len c + lenN (concat ms)) (head_range c)). destruct (L_Frame.head_range_cases c); lia. }
  destruct G as [G|[G|G]].
  - apply (C13_header_exact_partial c false x items HC HX HN); auto.
  - apply (C13_header_exact_partial c false x items HC HX HN); auto.
  - destruct (L_Packer.send_fits c false x HC HX G HN) as (it & E1 & E2).
    assert (it = items) by congruence. subst it. rewrite E2.
    pose proof (L_Frame.frame_hd c (arg_body x) [] G) as HH. rewrite app_nil_r in HH. unfold L_Frame.hd_val in HH. rewrite HH.
    rewrite L_Frame.lenN_frame. reflexivity.
Qed.
Example C13_debug_example : let c := mk_cfg 70000 false true (2^64 - 1) in cfg_ok c = true /\
  send_msg c false true (ATwo [Byte.x61] [Byte.x62]) = Ok (true, [[Byte.x00; Byte.x04]; [Byte.x61]; [Byte.x62]]).
Proof. split; vm_compute; reflexivity. Qed.
Print Assumptions C13_refuted.
Print Assumptions C13_statement_refuted.
Print Assumptions C13_header_exact_partial.
Print Assumptions C13_debug_never_truncates.

(** C16: sending with any mixture of overloads and heartbeats, any chunking, any conforming receiver *)
Theorem C16_end_to_end : forall S c nd (u : unpk S) s0 awf ts w ds st o,
  cfg_ok c = true -> bufsz c < head_range c -> receives_frames c u s0 ->
  Forall (tx_ok c) ts ->
  tx_wire (send_msg c nd true) (pack_heartbeat c nd) ts = Ok w -> concat ds = w ->
  run awf u (start_read u s0) ds = Some (st, o) ->
  all_msgs o = shown c (filter (fits c) (map tx_body ts)) /\ any_err o = false.
Proof.
  intros S c nd u s0 awf ts w ds st o HC HR HU F E Ed R.
  destruct (L_Packer.tx_wire_ok c nd HC HR ts F) as (bs & E1 & Fb & Hf).
  assert (w = wire c bs) by congruence. subst w.
  assert (EW : concat ds ++ [] = wire c bs) by (rewrite app_nil_r; congruence).
  destruct (HU awf bs ds [] st o Fb EW R) as [H1 H2]. split; [|exact H2].
  rewrite H1. unfold expected. rewrite L_Frame.complete_all by (rewrite H; apply N.le_refl).
  unfold shown. rewrite Hf. reflexivity.
Qed.
(** sending never fails or trips an assertion *)
Theorem C16_sending_safe : forall c nd ts,
  cfg_ok c = true -> bufsz c < head_range c -> Forall (tx_ok c) ts ->
  exists w, tx_wire (send_msg c nd true) (pack_heartbeat c nd) ts = Ok w.
Proof. intros c nd ts HC HR F. destruct (L_Packer.tx_wire_ok c nd HC HR ts F) as (bs & E1 & _). eauto. Qed.

(** the three length-prefixed receivers *)
Corollary C16_end_to_end_unpacker : forall c nd mem awf ts w ds st o,
  cfg_ok c = true -> bufsz c < head_range c -> lenN mem = bufsz c -> Forall (tx_ok c) ts ->
  tx_wire (send_msg c nd true) (pack_heartbeat c nd) ts = Ok w -> concat ds = w ->
  run awf (unpacker c) (start_read (unpacker c) (unp_init c mem)) ds = Some (st, o) ->
  all_msgs o = shown c (filter (fits c) (map tx_body ts)) /\ any_err o = false.
Proof. intros c nd mem awf ts w ds st o HC HR L. exact (C16_end_to_end _ c nd _ _ awf ts w ds st o HC HR (P_Unpacker.C01_unpacker_delivers_exactly c mem HC L)). Qed.
Corollary C16_end_to_end_flexible : forall c g nd mem awf ts w ds st o,
  cfg_ok c = true -> bufsz c < head_range c -> lenN mem = flex_raw_size -> Forall (tx_ok c) ts ->
  tx_wire (send_msg c nd true) (pack_heartbeat c nd) ts = Ok w -> concat ds = w ->
  run awf (flexible_unpacker c g) (start_read (flexible_unpacker c g) (flex_init c mem)) ds = Some (st, o) ->
  all_msgs o = shown c (filter (fits c) (map tx_body ts)) /\ any_err o = false.
Proof. intros c g nd mem awf ts w ds st o HC HR L. exact (C16_end_to_end _ c nd _ _ awf ts w ds st o HC HR (proj1 (P_Unpacker.C04_flexible_unpacker_4000 c g mem HC L))). Qed.
Corollary C16_end_to_end_non_copy : forall c g nd mem awf ts w ds st o,
  cfg_ok c = true -> bufsz c < head_range c -> stripped c = true -> lenN mem = head_len c -> Forall (tx_ok c) ts ->
  tx_wire (send_msg c nd true) (pack_heartbeat c nd) ts = Ok w -> concat ds = w ->
  run awf (non_copy_unpacker c g) (start_read (non_copy_unpacker c g) (nc_init mem)) ds = Some (st, o) ->
  all_msgs o = shown c (filter (fits c) (map tx_body ts)) /\ any_err o = false.
Proof. intros c g nd mem awf ts w ds st o HC HR HS L. exact (C16_end_to_end _ c nd _ _ awf ts w ds st o HC HR (proj1 (P_Unpacker.C05_non_copy_unpacker c g mem HC HS L))). Qed.

Definition ex_ts : list tx :=
  [Send (AArray (Some ex_bufs)); Heartbeat; Send (AOne [Byte.x65]); Send (ATwo [Byte.x66] []); Send (AMany [[Byte.x67]; [Byte.x68]]); Send (AOne (repeat Byte.x69 8))].
Lemma ex_ts_ok : Forall (tx_ok ex_c) ex_ts.
Proof.
  unfold ex_ts, ex_bufs. all_of; cbn [tx_ok arg_ok]; all_of; vm_compute; (exact I || congruence).
Qed.
(** the last message is too long and not sent *)
Example C16_example : Forall (tx_ok ex_c) ex_ts /\ bufsz ex_c < head_range ex_c /\ exists ds st o,
  tx_wire (send_msg ex_c false true) (pack_heartbeat ex_c false) ex_ts = Ok (concat ds) /\
  run false (unpacker ex_c) (start_read (unpacker ex_c) (unp_init ex_c (repeat Byte.xff 9))) ds = Some (st, o) /\
  all_msgs o = [[Byte.x61; Byte.x62; Byte.x64]; [Byte.x65]; [Byte.x66]; [Byte.x67; Byte.x68]].
Proof.
  split; [exact ex_ts_ok|]. split; [vm_compute; reflexivity|].
  exists [[Byte.x00; Byte.x05; Byte.x61; Byte.x62; Byte.x64; Byte.x00; Byte.x02; Byte.x00; Byte.x03]; [Byte.x65; Byte.x00; Byte.x03]; [Byte.x66; Byte.x00; Byte.x04; Byte.x67; Byte.x68]].
  do 2 eexists. all_of; (vm_compute; reflexivity).
Qed.
Print Assumptions C16_end_to_end.
Print Assumptions C16_sending_safe.
Print Assumptions C16_end_to_end_unpacker.
Print Assumptions C16_end_to_end_flexible.
Print Assumptions C16_end_to_end_non_copy.

(** prefix/suffix packer and unpacker; the application keeps the suffix out of its messages *)
Theorem C16_end_to_end_prefix_suffix : forall c a mem awf ts w ds st o,
  cfg_ok c = true -> affix_ok c a = true -> lenN mem = bufsz c ->
  Forall (tx_ok c) ts -> Forall (fun t => lenN (amsg a (tx_body t)) < size_range c) ts ->
  Forall (fun t => forall x y, tx_body t ++ suffix a = x ++ suffix a ++ y -> y = []) ts ->
  tx_wire (ps_send_msg c a true) (Ok (ps_pack_heartbeat a)) ts = Ok w -> concat ds = w ->
  run awf (ps_unpacker c a) (start_read (ps_unpacker c a) (ps_init c mem)) ds = Some (st, o) ->
  all_msgs o = ashown c a (filter (fun b => lenN (amsg a b) <=? bufsz c) (map tx_body ts)) /\ any_err o = false.
Proof.
  intros c a mem awf ts w ds st o HC HA L F G NS E Ed R.
  destruct (L_Packer.ps_tx_wire_ok c a HC HA ts F G) as (bs & E1 & Fb & Hf).
  assert (w = awire a bs) by congruence. subst w.
  assert (EW : concat ds ++ [] = awire a bs) by (rewrite app_nil_r; congruence).
  assert (FB : Forall (afits c a) bs).
  { rewrite Forall_forall in *. intros b Hb. destruct (Fb b Hb) as [B1 B2]. split; [exact B2|].
    apply in_map_iff in B1 as (t & <- & Ht). exact (NS t Ht). }
  destruct (P_PrefixSuffix.C06_prefix_suffix_delivers_exactly c a mem awf bs ds [] st o HC HA L FB EW R) as [H1 H2]. split; [|exact H2].
  rewrite H1. rewrite H, (L_Affix.acomplete_all c a HC HA).
  unfold ashown. f_equal. exact Hf.
Qed.
Example C16_prefix_suffix_example : let c := P_PrefixSuffix.ex_c in let a := P_PrefixSuffix.ex_a in exists ds st o,
  tx_wire (ps_send_msg c a true) (Ok (ps_pack_heartbeat a)) ex_ts = Ok (concat ds) /\
  run false (ps_unpacker c a) (start_read (ps_unpacker c a) (ps_init c (repeat Byte.xff 10))) ds = Some (st, o) /\
  all_msgs o = [[Byte.x61; Byte.x62; Byte.x64]; [Byte.x65]; [Byte.x66]; [Byte.x67; Byte.x68]].
Proof.
  exists [[Byte.x3c; Byte.x61; Byte.x62; Byte.x64; Byte.x3e; Byte.x3e; Byte.x3c]; [Byte.x3e; Byte.x3e; Byte.x3c; Byte.x65; Byte.x3e]; [Byte.x3e; Byte.x3c; Byte.x66; Byte.x3e; Byte.x3e]; [Byte.x3c; Byte.x67; Byte.x68]; [Byte.x3e; Byte.x3e]].
  do 2 eexists. all_of; (vm_compute; reflexivity).
Qed.
Print Assumptions C16_end_to_end_prefix_suffix.

(** fixed_length_packer and fixed_length_unpacker; the application sends messages of the agreed length only *)
Theorem C16_end_to_end_fixed_length : forall c n g hb awf s0 xs w ds st o,
  cfg_ok c = true -> fixed_ok c n = true ->
  Forall (arg_ok c) xs -> Forall (fun x => lenN (arg_body x) = n) xs ->
  tx_wire (fx_send_msg c true) hb (map Send xs) = Ok w -> concat ds = w ->
  run awf (fixed_unpacker n g) (start_read (fixed_unpacker n g) s0) ds = Some (st, o) ->
  all_msgs o = map arg_body xs /\ any_err o = false.
Proof.
  intros c n g hb awf s0 xs w ds st o HC HN F FL E Ed R.
  destruct (P_Simple.C09_fixed_length_cuts_exactly c n g awf s0 ds st o HN R) as (tail & T1 & T2 & T3 & T4 & _).
  unfold fixed_ok in HN. apply andb_prop in HN as [N1 N2].
  assert (FB : Forall (fun x => lenN (arg_body x) <= bufsz c) xs).
  { eapply Forall_impl; [|exact FL]. cbv beta. intros x Hx. lia. }
  rewrite (L_Packer.fx_tx_wire_ok c hb HC xs F FB) in E. split; [|exact T4].
  apply (L_Packer.same_cut n ltac:(lia) (map arg_body xs) (all_msgs o) tail); [|exact T2|exact T3|congruence].
  rewrite Forall_forall in *. intros m Hm. apply in_map_iff in Hm as (x & <- & Hx). exact (FL x Hx).
Qed.
Example C16_fixed_example : fixed_ok ex_c 3 = true /\ Forall (arg_ok ex_c) ex_args /\ Forall (fun x => lenN (arg_body x) = 3) ex_args /\
  exists w, tx_wire (fx_send_msg ex_c true) (Ok []) (map Send ex_args) = Ok w /\ lenN w = 12.
Proof.
  split; [reflexivity|]. split; [exact ex_args_ok|]. split; [unfold ex_args; all_of; reflexivity|].
  eexists. split; vm_compute; reflexivity.
Qed.
Print Assumptions C16_end_to_end_fixed_length.

(** C62: when send_msg returns true, the message has been put into the send buffer *)
Definition C62_statement : Prop := forall c nd can x items,
  cfg_ok c = true -> arg_ok c x -> send_msg c nd can x = Ok (true, items) -> concat items = frame c (arg_body x).
(** It is false: with the array form a message that is too long is dropped and true is returned. *)
Theorem C62_refuted : exists c x, cfg_ok c = true /\ arg_ok c x /\ send_msg c false true x = Ok (true, []) /\ lenN (arg_body x) = 8.
Proof.
  exists ex_c, (AArray (Some [mk_buf (Some (repeat Byte.x61 8)) 8])). split; [reflexivity|]. split; [|split; vm_compute; reflexivity].
  split; all_of; vm_compute; (exact I || congruence).
Qed.
Corollary C62_statement_refuted : ~ C62_statement.
Proof.
  intros H. destruct C62_refuted as (c & x & H1 & H2 & H3 & H4). specialize (H c false true x [] H1 H2 H3).
  apply (f_equal lenN) in H. rewrite L_Frame.lenN_frame, H4 in H. change (lenN (concat [])) with 0 in H. lia.
Qed.
(** What holds: for the message and container forms true means the whole frame was queued and false means
    nothing was; for the array form true with a fitting non-empty body means the same. *)
Theorem C62_true_means_queued_partial : forall c nd can x ok items,
  cfg_ok c = true -> bufsz c < head_range c -> arg_ok c x -> send_msg c nd can x = Ok (ok, items) ->
  (ok = false -> items = []) /\
  (ok = true -> (forall bs, x <> AArray bs) -> concat items = frame c (arg_body x)) /\
  (can = true -> fits c (arg_body x) = true -> arg_body x <> [] -> ok = true /\ concat items = frame c (arg_body x)).
Proof.
  intros c nd can x ok items HC HR HX E. destruct can.
  2:{ unfold send_msg, send_items in E. cbn [negb] in E. assert (ok = false /\ items = []) as [-> ->] by (split; congruence). repeat split; intros; congruence. }
  split; [|split].
  - intros ->. destruct (L_Packer.send_msg_ok c nd x HC HR HX) as (ok' & it & E1 & E2 & [E3|E3]); [congruence|].
    rewrite E3 in E2. congruence.
  - intros -> HA. destruct (L_Packer.send_msg_ok c nd x HC HR HX) as (ok' & it & E1 & E2 & _).
    assert (it = items) by congruence. subst it. assert (ok' = true) by congruence. subst ok'.
    destruct (fits c (arg_body x)) eqn:EF.
    + destruct E2 as [_ [E2|(_ & _ & bs & E3)]]; [exact E2|destruct (HA bs E3)].
    + pose proof (L_Packer.refused c nd x HC HR HX HA EF). congruence.
  - intros _ HF HN. destruct (L_Packer.send_fits c nd x HC HX HF HN) as (it & E1 & E2). split; congruence.
Qed.
Example C62_example : bufsz ex_c < head_range ex_c /\ Forall (arg_ok ex_c) ex_args /\
  send_msg ex_c false true (AOne (repeat Byte.x61 8)) = Ok (false, []) /\
  send_msg ex_c false true (AOne (repeat Byte.x61 7)) = Ok (true, [[Byte.x00; Byte.x09]; repeat Byte.x61 7]).
Proof. split; [vm_compute; reflexivity|]. split; [exact ex_args_ok|]. split; vm_compute; reflexivity. Qed.
Print Assumptions C62_refuted.
Print Assumptions C62_statement_refuted.
Print Assumptions C62_true_means_queued_partial.

(** C63: raw_data/raw_data_len of a packed message and of a received message denote exactly the body *)
Theorem C63_raw_data_is_the_body : forall c a b,
  cfg_ok c = true ->
  (fits c b = true -> packed_raw_data c (frame c b) = Ok b) /\
  (fits c b = true -> unpacked_raw_data c (if stripped c then b else frame c b) = Ok b) /\
  (lenN (amsg a b) <= bufsz c -> ps_packed_raw_data c a (amsg a b) = Ok b) /\
  (lenN (amsg a b) <= bufsz c -> ps_unpacked_raw_data c a (if stripped c then b else amsg a b) = Ok b).
Proof.
  intros c a b HC. destruct (L_Packer.size_range_facts c HC) as (S1 & S2 & S3).
  assert (HF : fits c b = true -> packed_raw_data c (frame c b) = Ok b).
  { intros F. apply L_Packer.frame_raw; [exact HC|]. rewrite L_Frame.lenN_frame. unfold fits in F. lia. }
  assert (HA : lenN (amsg a b) <= bufsz c -> ps_packed_raw_data c a (amsg a b) = Ok b).
  { intros F. apply L_Packer.affix_raw; [exact HC|lia]. }
  assert (HB : fetch b 0 (lenN b) = Ok b).
  { rewrite L_Bytes.fetch_ok by lia. rewrite L_Bytes.dropN_0, L_Bytes.takeN_all by lia. reflexivity. }
  split; [exact HF|]. split.
  { unfold unpacked_raw_data. destruct (stripped c); [intros _; exact HB|exact HF]. }
  split; [exact HA|]. unfold ps_unpacked_raw_data. destruct (stripped c); [intros _; exact HB|exact HA].
Qed.
Example C63_example : fits ex_c [Byte.x61; Byte.x62] = true /\
  packed_raw_data ex_c [Byte.x00; Byte.x04; Byte.x61; Byte.x62] = Ok [Byte.x61; Byte.x62] /\
  ps_packed_raw_data ex_c P_PrefixSuffix.ex_a [Byte.x3c; Byte.x61; Byte.x3e; Byte.x3e] = Ok [Byte.x61].
Proof. all_of; (vm_compute; reflexivity). Qed.
Print Assumptions C63_raw_data_is_the_body.
