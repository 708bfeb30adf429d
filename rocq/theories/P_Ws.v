(** C117-C119: messages over a web socket link *)
From Coq Require Import List NArith Bool Lia ZifyBool ZifyN.
From Verif Require Import M_Bytes M_Config M_PrefixSuffix M_Packer M_Queue S_Frame S_Packer M_Ws S_Ws.
From Verif Require L_Bytes L_Frame L_Packer.
Import ListNotations.
Open Scope N_scope.

Ltac pj := cbn [queue writing wire reading dead] in *.

Lemma out_one W l : 1 < W -> fst (q_out_bytes W (mk_q l (bytes_of W l)) 0) = match l with [] => [] | m :: _ => [m] end /\
  qitems (snd (q_out_bytes W (mk_q l (bytes_of W l)) 0)) = match l with [] => [] | _ :: l' => l' end.
Proof.
  intros H. unfold q_out_bytes. destruct (N.eqb_spec 0 (W - 1)); [lia|]. destruct l as [|m l]; cbn [qitems take_bytes].
  - split; reflexivity.
  - destruct (N.leb_spec 0 ((0 + lenN m) mod W)); [|lia]. split; reflexivity.
Qed.
Lemma do_send_eq W s : 1 < W -> do_send W s =
  match writing s, queue s with
  | None, m :: q => mk_state q (Some [m]) (wire s) (reading s) (dead s)
  | _, _ => s
  end.
Proof.
  intros H. unfold do_send. destruct s as [q wr wi re de]; pj. destruct wr as [i|]; [reflexivity|].
  pose proof (out_one W q H) as [E1 E2]. destruct (q_out_bytes W (mk_q q (bytes_of W q)) 0) as [a q']. cbn [fst snd] in *. rewrite E2.
  destruct q as [|m q]; subst a; reflexivity.
Qed.
Lemma W_ok c : cfg_ok c = true -> 1 < size_range c.
Proof. intro H. destruct (L_Packer.size_range_facts c H) as (A & B & C). lia. Qed.

(** everything on its way, in order *)
Definition pend (s : state) : list (list byte) := wire s ++ match writing s with None => [] | Some i => [concat i] end ++ queue s.
Definition units (w : wcfg) (e : event) : list (list byte) :=
  match e with
  | ECall native x true => match call_items w native true x with Ok (_, items) => items | Bad _ => [] end
  | EBeat => [frame (wc w) []]
  | EForeign m => [m]
  | _ => []
  end.
Definition Shape (s : state) : Prop :=
  dead s = false /\ reading s = true /\ Forall (fun m => m <> []) (pend s) /\ (writing s = None -> queue s = []) /\ (forall i, writing s = Some i -> exists m, i = [m]).

Lemma do_send_pend W s : 1 < W -> pend (do_send W s) = pend s.
Proof.
  intro H. rewrite (do_send_eq W s H). destruct s as [q wr wi re de]; pj. destruct wr as [i|]; [reflexivity|]. destruct q as [|m q]; [reflexivity|].
  unfold pend; pj. cbn. rewrite app_nil_r. reflexivity.
Qed.
Lemma do_send_shape W s : 1 < W -> dead s = false -> reading s = true -> Forall (fun m => m <> []) (pend s) -> (forall i, writing s = Some i -> exists m, i = [m]) -> Shape (do_send W s).
Proof.
  intros H D R F S. split; [|split; [|split; [rewrite (do_send_pend W s H); exact F|]]]; rewrite (do_send_eq W s H);
  destruct s as [q wr wi re de]; pj; destruct wr as [i|]; try destruct q as [|m q]; pj; auto.
  all: (split; [first [discriminate | reflexivity | auto]|intros j E; first [discriminate E | injection E as <-; eauto]]).
Qed.

Lemma frame_nonempty c b : frame c b <> [].
Proof.
  unfold frame, head_len. intro E. apply app_eq_nil in E. destruct E as [E _]. destruct (huge c); discriminate E.
Qed.
Lemma head_nonempty c n : head_image c n <> [].
Proof. unfold head_image, head_len. destruct (huge c); discriminate. Qed.

Lemma items_ok w native x : cfg_ok (wc w) = true -> arg_ok (wc w) x -> fits (wc w) (arg_body x) = true -> arg_body x <> [] -> Forall (fun m => m <> []) (pieces x) ->
  exists items, call_items w native true x = Ok (true, items) /\ Forall (fun m => m <> []) items /\
    concat items = (if native then arg_body x else frame (wc w) (arg_body x)) /\ (native && one_message x = true -> items = [arg_body x]).
Proof.
  intros HC HX HF HN HP. destruct (L_Packer.size_range_facts _ HC) as (S1 & S2 & S3). pose proof (L_Frame.cfg_ok_facts _ HC) as (C1 & C2 & C3 & C4).
  set (c := wc w) in *. destruct native.
  - cbn [call_items andb]. unfold call_items, native_items. fold c. cbn [negb]. destruct x as [[bs|]|m|m1 m2|ms]; cbn [arg_ok] in HX.
    + destruct HX as [F1 F2]. rewrite (L_Packer.pack_array_native c bs HC F1 F2). cbn [arg_body] in *.
      assert (HL : (lenN (concat (map buf_bytes bs)) <=? bufsz c) = true) by (unfold fits in HF; lia). rewrite HL. cbn [bind].
      exists [concat (map buf_bytes bs)]. destruct (concat (map buf_bytes bs)) as [|y b]; [congruence|]. cbn [opt_item]. split; [reflexivity|].
      split; [constructor; [discriminate|constructor]|]. split; [cbn; rewrite app_nil_r; reflexivity|]. intro; reflexivity.
    + contradiction.
    + exists [m]. cbn [arg_body pieces] in *. destruct m as [|y m]; [congruence|]. split; [reflexivity|]. split; [exact HP|]. split; [cbn; rewrite app_nil_r; reflexivity|]. reflexivity.
    + exists [m1; m2]. cbn [arg_body pieces] in *. split; [reflexivity|]. split; [exact HP|]. split; [cbn; rewrite app_nil_r; reflexivity|]. discriminate.
    + exists ms. split; [reflexivity|]. split; [exact HP|]. split; [reflexivity|]. discriminate.
  - destruct (L_Packer.send_fits c (ndebug w) x HC HX HF HN) as (items & E & K). exists items. split; [exact E|]. split; [|split; [exact K|discriminate]].
    unfold send_msg, send_items in E. cbn [negb] in E. destruct x as [[bs|]|m|m1 m2|ms]; cbn [arg_ok] in HX.
    + destruct HX as [F1 F2]. rewrite (L_Packer.pack_array_ok c bs HC F1 F2) in E. cbn [arg_body] in *. cbv zeta in E. rewrite HF in E. cbn [bind] in E.
      injection E as <-. destruct (concat (map buf_bytes bs)); [congruence|]. destruct (frame c _) eqn:Q; [exfalso; exact (frame_nonempty _ _ Q)|]. constructor; [discriminate|constructor].
    + contradiction.
    + unfold pack_one, pack_header in E. repeat match type of E with context [if ?b then _ else _] => destruct b end; cbn [bind] in E; try discriminate E. injection E as <-.
      constructor; [apply head_nonempty|exact HP].
    + unfold pack_two, pack_header in E. repeat match type of E with context [if ?b then _ else _] => destruct b end; cbn [bind] in E; try discriminate E. injection E as <-.
      constructor; [apply head_nonempty|exact HP].
    + unfold pack_many, pack_header in E. repeat match type of E with context [if ?b then _ else _] => destruct b end; cbn [bind] in E; try discriminate E. injection E as <-.
      constructor; [apply head_nonempty|exact HP].
Qed.
Lemma beat_ok w : cfg_ok (wc w) = true -> beats w = true -> beat_items w = Ok [frame (wc w) []].
Proof.
  intros HC B. unfold beat_items, pack_heartbeat. rewrite B. pose proof (L_Frame.cfg_ok_facts _ HC) as (C1 & C2 & C3 & C4).
  rewrite (L_Packer.pack_header_ok (wc w) (ndebug w) 0 HC); [|lia|rewrite N.add_0_r; unfold head_range, head_len; destruct (huge (wc w)); vm_compute; reflexivity].
  unfold frame. cbn [bind lenN length]. rewrite app_nil_r. change (N.of_nat 0) with 0. unfold head_image.
  destruct (be_encode _ _) eqn:Q; [|reflexivity]. exfalso. exact (head_nonempty _ _ Q).
Qed.

(** the sequence of steps does not mix the library and a foreign program as senders *)
Definition one_sender (l : list action) : bool := forallb (fun a => negb (is_foreign a)) l || forallb (fun a => negb (is_call a || is_beat a)) l.
Definition act_ok (w : wcfg) (a : action) : Prop := call_ok w a /\ forall m, a = WForeign m -> m <> [].

Lemma got_app t1 t2 : got (t1 ++ t2) = got t1 ++ got t2.
Proof. induction t1 as [|e t1 IH]; [reflexivity|]. destruct e; cbn; rewrite ?IH; reflexivity. Qed.

(** one step: what is on its way grows by the units and shrinks by what is given to the application *)
Lemma step_pend w s a s' e : cfg_ok (wc w) = true -> Shape s -> act_ok w a -> (is_foreign a = true -> writing s = None) -> step w s a = Some (s', e) ->
  Shape s' /\ pend s ++ flat_map (units w) e = got e ++ pend s' /\ (is_call a || is_beat a = false -> writing s = None -> writing s' = None).
Proof.
  intros HC (D0 & R0 & F0 & Q0 & I0) [AO AF] NF D. pose proof (W_ok _ HC) as HW.
  unfold step in D. rewrite D0 in D. destruct a as [native can x| | |m|]; cbn [is_call is_beat is_foreign orb] in *.
  - destruct AO as (A1 & A2 & A3 & A4). destruct (items_ok w native x HC A1 A2 A3 A4) as (items & E & K & _). destruct can.
    + rewrite E in D. injection D as <- <-. unfold enqueue. split; [|split; [|discriminate]].
      * apply do_send_shape; auto; pj. unfold pend; pj. rewrite !app_assoc. apply Forall_app. split; [rewrite <- !app_assoc; exact F0|exact K].
      * rewrite do_send_pend by assumption. cbn [flat_map units got]. rewrite E, app_nil_r. unfold pend; pj. rewrite <- !app_assoc. reflexivity.
    + assert (X : call_items w native false x = Ok (false, [])) by (destruct native; reflexivity). rewrite X in D. injection D as <- <-.
      split; [repeat split; auto|]. split; [cbn; rewrite app_nil_r; reflexivity|]. discriminate.
  - destruct (writing s) as [i|] eqn:W; [discriminate|]. destruct (beats w) eqn:B.
    + rewrite (beat_ok w HC B) in D. injection D as <- <-. unfold enqueue. split; [|split; [|discriminate]].
      * apply do_send_shape; auto; pj; [|intros; congruence]. unfold pend; pj. rewrite W in *. rewrite !app_assoc. apply Forall_app. split; [|constructor; [apply frame_nonempty|constructor]].
        unfold pend in F0. rewrite W in F0. rewrite <- app_assoc. exact F0.
      * rewrite do_send_pend by assumption. cbn [flat_map units got]. rewrite app_nil_r. unfold pend; pj. rewrite <- !app_assoc. reflexivity.
    + unfold beat_items in D. rewrite B in D. injection D as <- <-. split; [repeat split; auto; congruence|]. split; [cbn; rewrite app_nil_r; reflexivity|]. auto.
  - destruct (writing s) as [i|] eqn:W; [|discriminate]. injection D as <- <-. destruct (I0 _ eq_refl) as [m ->].
    assert (P : pend (mk_state (queue s) None (wire s ++ [concat [m]]) (reading s) false) = pend s).
    { unfold pend; pj. rewrite W. rewrite <- !app_assoc. reflexivity. }
    split; [apply do_send_shape; auto; [rewrite P; exact F0|pj; discriminate]|]. split; [|discriminate].
    rewrite do_send_pend by assumption. rewrite P. cbn. rewrite app_nil_r. reflexivity.
  - injection D as <- <-. specialize (NF eq_refl). rewrite NF in *. specialize (Q0 eq_refl). split; [|split; [|auto]].
    + repeat split; pj; auto; try discriminate. unfold pend in *; pj. rewrite NF in *. rewrite Q0 in *. cbn in *. rewrite app_nil_r in *. apply Forall_app. split; [exact F0|].
      constructor; [exact (AF _ eq_refl)|constructor].
    + cbn [flat_map units got]. unfold pend; pj. rewrite NF, Q0. cbn. rewrite !app_nil_r. reflexivity.
  - rewrite R0 in D. destruct (wire s) as [|m rest] eqn:W; [discriminate|]. injection D as D. unfold recv in D.
    assert (HM : m <> []) by (unfold pend in F0; rewrite W in F0; inversion F0; assumption).
    destruct (N.ltb_spec 0 (lenN m)) as [HL|HL]; [|exfalso; apply HM, L_Bytes.lenN_0; lia]. injection D as <- <-. split; [|split; [|auto]].
    + unfold pend in F0. rewrite W in F0. repeat split; pj; auto; try (inversion F0; assumption). 
    + cbn [flat_map units got]. unfold pend; pj. rewrite W, app_nil_r. reflexivity.
Qed.
Lemma run_pend w : cfg_ok (wc w) = true -> forall l s s' t, Shape s -> Forall (act_ok w) l ->
  (forallb (fun a => negb (is_foreign a)) l = true \/ (writing s = None /\ forallb (fun a => negb (is_call a || is_beat a)) l = true)) ->
  run w s l = Some (s', t) -> Shape s' /\ pend s ++ flat_map (units w) t = got t ++ pend s'.
Proof.
  intros HC. induction l as [|a l IH]; intros s s' t S F M R; cbn in R.
  - injection R as <- <-. split; [exact S|]. cbn. rewrite app_nil_r. reflexivity.
  - destruct (step w s a) as [[s1 e1]|] eqn:D; [|discriminate]. destruct (run w s1 l) as [[s2 e2]|] eqn:R2; [|discriminate]. injection R as <- <-.
    inversion F as [|? ? F1 F2]; subst. cbn [forallb] in M.
    assert (NF : is_foreign a = true -> writing s = None) by (intro Q; rewrite Q in M; destruct M as [M|[M _]]; [discriminate|exact M]).
    destruct (step_pend w s a s1 e1 HC S F1 NF D) as (S1 & P1 & N1).
    destruct (IH s1 s2 e2 S1 F2) as [S2 P2]; [|exact R2|].
    + destruct M as [M|[M1 M2]]; [left; apply andb_prop in M; tauto|right]. apply andb_prop in M2. destruct M2 as [M2 M3]. split; [|exact M3].
      apply N1; [|exact M1]. destruct (is_call a || is_beat a); [discriminate|reflexivity].
    + split; [exact S2|]. rewrite flat_map_app, got_app, app_assoc, P1, <- !app_assoc. f_equal. exact P2.
Qed.
Lemma Shape_init : Shape init.
Proof. repeat split; try discriminate; constructor. Qed.

(** the library's own steps deliver all that is on its way *)
Lemma flush w : cfg_ok (wc w) = true -> forall n s, (2 * length (queue s) + 2 * (match writing s with None => 0 | Some _ => 1 end) + length (wire s) <= n)%nat -> Shape s ->
  exists l s' t', forallb own l = true /\ run w s l = Some (s', t') /\ got t' = pend s /\ flat_map (units w) t' = [].
Proof.
  intros HC. induction n as [|n IH]; intros s L S.
  - exists [], s, []. destruct S as (_ & _ & _ & Q & _). unfold pend. destruct (queue s), (wire s), (writing s); cbn in L; try lia. repeat split; reflexivity.
  - assert (G : forall a s1 e1, own a = true -> step w s a = Some (s1, e1) -> flat_map (units w) e1 = [] -> pend s = got e1 ++ pend s1 -> Shape s1 ->
      (2 * length (queue s1) + 2 * (match writing s1 with None => 0 | Some _ => 1 end) + length (wire s1) <= n)%nat ->
      exists l s' t', forallb own l = true /\ run w s l = Some (s', t') /\ got t' = pend s /\ flat_map (units w) t' = []).
    { intros a s1 e1 O D U P S1 L1. destruct (IH s1 L1 S1) as (l & s' & t' & A & B & C & E). exists (a :: l), s', (e1 ++ t').
      cbn. rewrite O, A, D, B. repeat split; auto. rewrite got_app, C. symmetry; exact P. rewrite flat_map_app, U, E. reflexivity. }
    pose proof S as (D0 & R0 & F0 & Q0 & I0). pose proof (W_ok _ HC) as HW.
    destruct (wire s) as [|m rest] eqn:W.
    + destruct (writing s) as [i|] eqn:WR.
      * assert (D : exists s1, step w s WWritten = Some (s1, [])) by (unfold step; rewrite D0, WR; eexists; reflexivity). destruct D as [s1 D].
        destruct (step_pend w s WWritten s1 [] HC S) as (S1 & P1 & _); [split; [exact I|intros; discriminate]|discriminate|exact D|].
        apply (G WWritten s1 []); auto; [cbn in P1; rewrite app_nil_r in P1; exact P1|].
        unfold step in D. rewrite D0, WR in D. injection D as <-. rewrite do_send_eq by assumption. pj. rewrite W in *. destruct (queue s); cbn in *; lia.
      * rewrite (Q0 eq_refl) in *. exists [], s, []. unfold pend. rewrite W, WR, (Q0 eq_refl). repeat split; reflexivity.
    + assert (HM : m <> []) by (unfold pend in F0; rewrite W in F0; inversion F0; assumption).
      assert (D : step w s WRead = Some (mk_state (queue s) (writing s) rest true (dead s), [EGot m])).
      { unfold step, recv. rewrite D0, R0, W. destruct (N.ltb_spec 0 (lenN m)) as [HL|HL]; [reflexivity|exfalso; apply HM, L_Bytes.lenN_0; lia]. }
      assert (AW : act_ok w WRead) by (split; [exact I|intros; discriminate]). destruct (step_pend w s WRead _ _ HC S AW (fun q => False_ind _ (Bool.diff_false_true q)) D) as (S1 & P1 & _).
      apply (G WRead _ _ eq_refl D); auto; [cbn in P1; rewrite app_nil_r in P1; exact P1|]. pj. cbn in L. lia.
Qed.

(** ** C117: a message sent with one call is one message for the peer's application *)
Definition C117_statement : Prop := forall w l s t, cfg_ok (wc w) = true -> Forall (call_ok w) l -> forallb (fun a => negb (is_foreign a || is_beat a)) l = true ->
  run w init l = Some (s, t) -> prefix_of (got t) (sent t).
Definition w_def : wcfg := mk_wcfg default_cfg true true.
Definition hello : list byte := [Byte.x68; Byte.x69].
Definition l_framed : list action := [WSend false true (AOne hello); WWritten; WRead; WWritten; WRead].
Definition l_array : list action := [WSend false true (AArray (Some [mk_buf (Some hello) 2])); WWritten; WRead].
Definition l_two : list action := [WSend true true (ATwo [Byte.x68] [Byte.x69]); WWritten; WRead; WWritten; WRead].
(** send_msg(msg): the header arrives as a message of its own, then the body; send_msg(pointer, length): header and body in one message;
    send_native_msg(msg1, msg2): two messages *)
Theorem C117_refuted : exists s t, run w_def init l_framed = Some (s, t) /\ Forall (call_ok w_def) l_framed /\ sent t = [hello] /\ got t = [[Byte.x00; Byte.x04]; hello].
Proof. do 2 eexists. split; [vm_compute; reflexivity|]. split; [|split; reflexivity]. repeat constructor; discriminate. Qed.
Print Assumptions C117_refuted.
Theorem C117_array_refuted : exists s t, run w_def init l_array = Some (s, t) /\ sent t = [hello] /\ got t = [[Byte.x00; Byte.x04] ++ hello].
Proof. do 2 eexists. split; [vm_compute; reflexivity|]. split; reflexivity. Qed.
Print Assumptions C117_array_refuted.
Theorem C117_two_refuted : exists s t, run w_def init l_two = Some (s, t) /\ sent t = [hello] /\ got t = [[Byte.x68]; [Byte.x69]].
Proof. do 2 eexists. split; [vm_compute; reflexivity|]. split; reflexivity. Qed.
Print Assumptions C117_two_refuted.
Theorem C117_statement_refuted : ~ C117_statement.
Proof.
  intro C. destruct C117_refuted as (s & t & R & F & S & G). destruct (C w_def l_framed s t eq_refl F eq_refl R) as [r E]. rewrite S, G in E. discriminate.
Qed.
Print Assumptions C117_statement_refuted.

Lemma sent_app t1 t2 : sent (t1 ++ t2) = sent t1 ++ sent t2.
Proof. induction t1 as [|e t1 IH]; [reflexivity|]. destruct e as [n x [|]| | | | |]; cbn; rewrite ?IH; reflexivity. Qed.
Lemma step_call w s a s' e : step w s a = Some (s', e) -> cfg_ok (wc w) = true -> act_ok w a -> Shape s ->
  (plain a = true -> flat_map (units w) e = sent e) /\ concat (flat_map (units w) e) = stream (wc w) e ++ concat (foreign e) /\ (beats w = false -> stream (wc w) (calls_only e) = stream (wc w) e) /\
  (is_foreign a = true \/ foreign e = []) /\ (is_call a || is_beat a = false -> flat_map (units w) e = foreign e).
Proof.
  intros D HC [AO AF] (D0 & R0 & _). unfold step in D. rewrite D0 in D. destruct a as [native can x| | |m|].
  - destruct AO as (A1 & A2 & A3 & A4). destruct (items_ok w native x HC A1 A2 A3 A4) as (items & E & K & CI & OI). destruct can.
    + rewrite E in D. injection D as <- <-. cbn [flat_map units sent stream calls_only filter foreign concat plain is_foreign is_call]. rewrite E, !app_nil_r.
      split; [exact OI|]. split; [rewrite CI; destruct native; rewrite ?app_nil_r; reflexivity|]. split; [intros; destruct native; reflexivity|]. split; [right; reflexivity|discriminate].
    + assert (X : call_items w native false x = Ok (false, [])) by (destruct native; reflexivity). rewrite X in D. injection D as <- <-. destruct native; repeat split; auto.
  - destruct (writing s); [discriminate|]. destruct (beats w) eqn:B.
    + rewrite (beat_ok w HC B) in D. injection D as <- <-. cbn. split; [discriminate|]. rewrite !app_nil_r. repeat split; auto; discriminate.
    + unfold beat_items in D. rewrite B in D. injection D as <- <-. repeat split; auto.
  - destruct (writing s); [|discriminate]. injection D as <- <-. repeat split; auto.
  - injection D as <- <-. cbn. split; [discriminate|]. rewrite !app_nil_r. repeat split; auto.
  - destruct (reading s); [|discriminate]. destruct (wire s) as [|m rest]; [discriminate|]. injection D as D. unfold recv in D.
    destruct (0 <? lenN m); [|destruct (ndebug w)]; injection D as <- <-; repeat split; auto.
Qed.
Lemma stream_app c t1 t2 : stream c (t1 ++ t2) = stream c t1 ++ stream c t2.
Proof. induction t1 as [|e t1 IH]; [reflexivity|]. destruct e as [[|] x [|]| | | | |]; cbn; rewrite ?IH, ?app_assoc; reflexivity. Qed.
Lemma foreign_app t1 t2 : foreign (t1 ++ t2) = foreign t1 ++ foreign t2.
Proof. induction t1 as [|e t1 IH]; [reflexivity|]. destruct e; cbn; rewrite ?IH; reflexivity. Qed.
Lemma calls_app t1 t2 : calls_only (t1 ++ t2) = calls_only t1 ++ calls_only t2.
Proof. apply filter_app. Qed.

Lemma run_call w : cfg_ok (wc w) = true -> forall l s s' t, Shape s -> Forall (act_ok w) l ->
  (forallb (fun a => negb (is_foreign a)) l = true \/ (writing s = None /\ forallb (fun a => negb (is_call a || is_beat a)) l = true)) ->
  run w s l = Some (s', t) ->
  (forallb plain l = true -> flat_map (units w) t = sent t) /\
  (forallb (fun a => negb (is_foreign a)) l = true -> concat (flat_map (units w) t) = stream (wc w) t) /\
  (beats w = false -> stream (wc w) (calls_only t) = stream (wc w) t) /\
  (forallb (fun a => negb (is_call a || is_beat a)) l = true -> flat_map (units w) t = foreign t).
Proof.
  intros HC. induction l as [|a l IH]; intros s s' t S F M R; cbn in R; [injection R as <- <-; repeat split; auto|].
  destruct (step w s a) as [[s1 e1]|] eqn:D; [|discriminate]. destruct (run w s1 l) as [[s2 e2]|] eqn:R2; [|discriminate]. injection R as <- <-.
  inversion F as [|? ? F1 F2]; subst. cbn [forallb] in M.
  assert (NF : is_foreign a = true -> writing s = None) by (intro Q; rewrite Q in M; destruct M as [M|[M _]]; [discriminate|exact M]).
  destruct (step_pend w s a s1 e1 HC S F1 NF D) as (S1 & P1 & N1).
  destruct (step_call w s a s1 e1 D HC F1 S) as (X1 & X2 & X3 & X4 & X5).
  destruct (IH s1 s2 e2 S1 F2) as (Y1 & Y2 & Y3 & Y4); [|exact R2|].
  { destruct M as [M|[M1 M2]]; [left; apply andb_prop in M; tauto|right]. apply andb_prop in M2. destruct M2 as [M2 M3]. split; [|exact M3].
    apply N1; [|exact M1]. destruct (is_call a || is_beat a); [discriminate|reflexivity]. }
  cbn [forallb]. rewrite !flat_map_app, sent_app, stream_app, calls_app, stream_app, foreign_app, concat_app.
  repeat split; intro Q; try (apply andb_prop in Q; destruct Q as [Q1 Q2]).
  - rewrite (X1 Q1), (Y1 Q2). reflexivity.
  - rewrite X2, (Y2 Q2). destruct X4 as [X4|X4]; [rewrite X4 in Q1; discriminate|]. rewrite X4. cbn. rewrite app_nil_r. reflexivity.
  - rewrite (X3 Q), (Y3 Q). reflexivity.
  - rewrite (Y4 Q2), X5; [reflexivity|]. destruct (is_call a || is_beat a); [discriminate|reflexivity].
Qed.

Lemma no_foreign_ok w l : Forall (call_ok w) l -> forallb (fun a => negb (is_foreign a)) l = true -> Forall (act_ok w) l.
Proof.
  induction 1 as [|a l A F IH]; intro Q; [constructor|]. cbn in Q. apply andb_prop in Q. destruct Q as [Q1 Q2]. constructor; [|exact (IH Q2)].
  split; [exact A|]. intros m ->. discriminate.
Qed.
Lemma plain_no_foreign l : forallb plain l = true -> forallb (fun a => negb (is_foreign a)) l = true.
Proof. induction l as [|a l IH]; intro Q; [reflexivity|]. cbn in *. apply andb_prop in Q. destruct Q as [Q1 Q2]. rewrite (IH Q2). destruct a; try discriminate; reflexivity. Qed.

(** what has arrived is exactly the beginning of what was sent, and the library delivers the rest *)
Lemma deliver w l s t : cfg_ok (wc w) = true -> Forall (act_ok w) l -> one_sender l = true -> run w init l = Some (s, t) ->
  dead s = false /\ reading s = true /\ flat_map (units w) t = got t ++ pend s /\
  exists k s' t', forallb own k = true /\ run w s k = Some (s', t') /\ got (t ++ t') = flat_map (units w) t /\ sent t' = [] /\ stream (wc w) t' = [] /\ foreign t' = [].
Proof.
  intros HC F M R. assert (M' : forallb (fun a => negb (is_foreign a)) l = true \/ (writing init = None /\ forallb (fun a => negb (is_call a || is_beat a)) l = true)).
  { unfold one_sender in M. apply orb_prop in M. destruct M; [left; assumption|right; split; [reflexivity|assumption]]. }
  destruct (run_pend w HC l init s t Shape_init F M' R) as [S P]. change (pend init ++ flat_map (units w) t) with (flat_map (units w) t) in P.
  pose proof S as (D0 & R0 & _). split; [exact D0|]. split; [exact R0|]. split; [exact P|].
  destruct (flush w HC _ s (le_n _) S) as (k & s' & t' & A & B & C & E). exists k, s', t'. split; [exact A|]. split; [exact B|].
  split; [rewrite got_app, C, P; reflexivity|].
  assert (Z : forall k s s' t', forallb own k = true -> run w s k = Some (s', t') -> sent t' = [] /\ stream (wc w) t' = [] /\ foreign t' = []).
  { clear. induction k as [|a k IH]; intros s s' t' A B; cbn in B; [injection B as <- <-; auto|]. cbn in A. apply andb_prop in A. destruct A as [A1 A2].
    destruct (step w s a) as [[s1 e1]|] eqn:D; [|discriminate]. destruct (run w s1 k) as [[s2 e2]|] eqn:R2; [|discriminate]. injection B as <- <-.
    destruct (IH _ _ _ A2 R2) as (I1 & I2 & I3). rewrite sent_app, stream_app, foreign_app, I1, I2, I3.
    unfold step in D. destruct (dead s); [discriminate|]. destruct a; try discriminate A1.
    - destruct (writing s); [|discriminate]. injection D as <- <-. auto.
    - destruct (reading s); [|discriminate]. destruct (wire s) as [|m rest]; [discriminate|]. injection D as D. unfold recv in D.
      destruct (0 <? lenN m); [|destruct (ndebug w)]; injection D as <- <-; auto. }
  exact (Z k s s' t' A B).
Qed.

(** C117 for send_native_msg with one message: exactly the messages sent, in order, and all of them *)
Theorem C117_partial : forall w l s t, cfg_ok (wc w) = true -> Forall (call_ok w) l -> forallb plain l = true -> run w init l = Some (s, t) ->
  prefix_of (got t) (sent t) /\ comes w s t (fun t => got t = sent t).
Proof.
  intros w l s t HC F Q R. pose proof (plain_no_foreign l Q) as NF. pose proof (no_foreign_ok w l F NF) as AO.
  assert (M : one_sender l = true) by (unfold one_sender; rewrite NF; reflexivity).
  destruct (deliver w l s t HC AO M R) as (_ & _ & P & k & s' & t' & A & B & C & E1 & _).
  destruct (run_call w HC l init s t Shape_init AO (or_introl NF) R) as (X & _). rewrite (X Q) in *.
  split; [exists (pend s); exact P|]. exists k, s', t'. rewrite sent_app, E1, app_nil_r. auto.
Qed.
Print Assumptions C117_partial.
Definition l_plain : list action := [WSend true true (AOne hello); WSend true false (AOne hello); WSend true true (AArray (Some [mk_buf (Some hello) 1; mk_buf (Some hello) 2])); WWritten; WRead].
Example C117_ex : exists s t, run w_def init l_plain = Some (s, t) /\ Forall (call_ok w_def) l_plain /\ forallb plain l_plain = true /\ sent t = [hello; Byte.x68 :: hello] /\ got t = [hello].
Proof. do 2 eexists. split; [vm_compute; reflexivity|]. split; [|repeat split]. repeat constructor; vm_compute; congruence. Qed.

(** all forms of sending: the bytes the application is given are, put together, those that a stream link would carry *)
Theorem C117_bytes : forall w l s t, cfg_ok (wc w) = true -> Forall (call_ok w) l -> forallb (fun a => negb (is_foreign a)) l = true -> run w init l = Some (s, t) ->
  prefix_of (concat (got t)) (stream (wc w) t) /\ comes w s t (fun t => concat (got t) = stream (wc w) t).
Proof.
  intros w l s t HC F NF R. pose proof (no_foreign_ok w l F NF) as AO.
  assert (M : one_sender l = true) by (unfold one_sender; rewrite NF; reflexivity).
  destruct (deliver w l s t HC AO M R) as (_ & _ & P & k & s' & t' & A & B & C & _ & E1 & _).
  destruct (run_call w HC l init s t Shape_init AO (or_introl NF) R) as (_ & X & _). specialize (X NF).
  split; [exists (concat (pend s)); rewrite <- X, P, concat_app; reflexivity|]. exists k, s', t'. split; [exact A|]. split; [exact B|].
  rewrite stream_app, E1, app_nil_r, C. exact X.
Qed.
Print Assumptions C117_bytes.
Definition l_mixed : list action := [WBeat; WSend false true (ATwo hello hello); WSend true true (AMany [hello]); WWritten; WRead; WWritten].
Example C117_bytes_ex : exists s t, run w_def init l_mixed = Some (s, t) /\ Forall (call_ok w_def) l_mixed /\ forallb (fun a => negb (is_foreign a)) l_mixed = true /\ stream default_cfg t = [Byte.x00; Byte.x02; Byte.x00; Byte.x06] ++ hello ++ hello ++ hello.
Proof. do 2 eexists. split; [vm_compute; reflexivity|]. split; [|split; reflexivity]. repeat constructor; vm_compute; congruence. Qed.

(** ** C118: whatever messages the peer sends, receiving goes on *)
Definition C118_statement : Prop := forall w l s t, cfg_ok (wc w) = true -> one_sender l = true -> run w init l = Some (s, t) -> dead s = false /\ comes w s t (fun t => got t = foreign t).
(** an empty message: with assertions the program ends; without, nothing is read any more, whatever happens later, and no error is reported *)
Theorem C118_abort_refuted : exists s t, run (mk_wcfg default_cfg false true) init [WForeign []; WRead] = Some (s, t) /\ dead s = true /\ t = [EForeign []; EAbort].
Proof. do 2 eexists. split; [vm_compute; reflexivity|]. split; reflexivity. Qed.
Print Assumptions C118_abort_refuted.
Lemma deaf w : forall l s s' t, reading s = false -> run w s l = Some (s', t) -> reading s' = false /\ got t = [].
Proof.
  assert (E : forall W s, reading (do_send W s) = reading s).
  { intros W s. unfold do_send. destruct (writing s); [reflexivity|]. destruct (q_out_bytes _ _ _) as [[|x a] q]; reflexivity. }
  induction l as [|a l IH]; intros s s' t F R; cbn in R; [injection R as <- <-; auto|].
  destruct (step w s a) as [[s1 e1]|] eqn:D; [|discriminate]. destruct (run w s1 l) as [[s2 e2]|] eqn:R2; [|discriminate]. injection R as <- <-.
  assert (X : reading s1 = false /\ got e1 = []).
  { clear IH R2. unfold step in D. destruct (dead s); [discriminate|]. destruct a as [native can x| | |m|].
    - destruct (call_items w native can x) as [[[|] items]|]; injection D as <- <-; split; try reflexivity; try exact F. unfold enqueue. rewrite E. exact F.
    - destruct (writing s); [discriminate|]. destruct (beat_items w) as [[|i il]|]; injection D as <- <-; split; try reflexivity; try exact F. unfold enqueue. rewrite E. exact F.
    - destruct (writing s); [|discriminate]. injection D as <- <-. rewrite E. split; [exact F|reflexivity].
    - injection D as <- <-. split; [exact F|reflexivity].
    - rewrite F in D. discriminate. }
  destruct X as [X1 X2]. destruct (IH _ _ _ X1 R2) as [I1 I2]. split; [exact I1|]. rewrite got_app, X2, I2. reflexivity.
Qed.
Theorem C118_refuted : exists s t, run w_def init [WForeign []; WRead] = Some (s, t) /\ dead s = false /\ t = [EForeign []; EOdd] /\
  forall l s' t', run w_def s l = Some (s', t') -> got t' = [].
Proof.
  do 2 eexists. split; [vm_compute; reflexivity|]. split; [reflexivity|]. split; [reflexivity|]. intros l s' t' R. refine (proj2 (deaf _ _ _ _ _ _ R)); reflexivity.
Qed.
Print Assumptions C118_refuted.
(** the library itself sends such messages: send_msg with an empty message, send_native_msg with an empty second message *)
Theorem C118_own_refuted : forall native, exists x s t, run w_def init (WSend native true x :: [WWritten; WRead; WWritten; WRead]) = Some (s, t) /\ In (ECall native x true) t /\
  forall l s' t', run w_def s l = Some (s', t') -> got t' = [].
Proof.
  intros [|]; [exists (ATwo hello [])|exists (AOne [])]; do 2 eexists; (split; [vm_compute; reflexivity|]; split; [left; reflexivity|]; intros l s' t' R; refine (proj2 (deaf _ _ _ _ _ _ R)); reflexivity).
Qed.
Print Assumptions C118_own_refuted.
Theorem C118_statement_refuted : ~ C118_statement.
Proof.
  intro C. destruct C118_abort_refuted as (s & t & R & D & _). destruct (C (mk_wcfg default_cfg false true) [WForeign []; WRead] s t eq_refl eq_refl R) as [X _]. congruence.
Qed.
Print Assumptions C118_statement_refuted.
Theorem C118_partial : forall w l s t, cfg_ok (wc w) = true -> forallb (fun a => negb (is_call a || is_beat a)) l = true -> (forall m, In (WForeign m) l -> m <> []) -> run w init l = Some (s, t) ->
  dead s = false /\ prefix_of (got t) (foreign t) /\ comes w s t (fun t => got t = foreign t).
Proof.
  intros w l s t HC NC NE R.
  assert (AO : Forall (act_ok w) l).
  { clear R. induction l as [|a l IH]; [constructor|]. cbn in NC. apply andb_prop in NC. destruct NC as [N1 N2]. constructor; [|apply IH; [exact N2|intros m I; apply NE; right; exact I]].
    split; [destruct a; try exact I; discriminate|]. intros m ->. apply NE. left. reflexivity. }
  assert (M : one_sender l = true) by (unfold one_sender; rewrite NC; apply orb_true_r).
  destruct (deliver w l s t HC AO M R) as (D0 & R0 & P & k & s' & t' & A & B & C & _ & _ & E1).
  destruct (run_call w HC l init s t Shape_init AO (or_intror (conj eq_refl NC)) R) as (_ & _ & _ & X). rewrite (X NC) in *.
  split; [exact D0|]. split; [exists (pend s); exact P|]. exists k, s', t'. rewrite foreign_app, E1, app_nil_r. auto.
Qed.
Print Assumptions C118_partial.
Example C118_ex : exists s t, run (mk_wcfg default_cfg false true) init [WForeign hello; WForeign [Byte.x00]; WRead] = Some (s, t) /\ got t = [hello] /\ foreign t = [hello; [Byte.x00]].
Proof. do 2 eexists. split; [vm_compute; reflexivity|]. split; reflexivity. Qed.

(** ** C119: heartbeats are not given to the application *)
Definition C119_statement : Prop := forall w l s t, cfg_ok (wc w) = true -> Forall (call_ok w) l -> forallb (fun a => negb (is_foreign a)) l = true -> run w init l = Some (s, t) ->
  prefix_of (concat (got t)) (stream (wc w) (calls_only t)).
Theorem C119_refuted : exists s t, run w_def init [WBeat; WWritten; WRead] = Some (s, t) /\ got t = [[Byte.x00; Byte.x02]].
Proof. do 2 eexists. split; [vm_compute; reflexivity|]. reflexivity. Qed.
Print Assumptions C119_refuted.
Theorem C119_statement_refuted : ~ C119_statement.
Proof.
  intro C. destruct C119_refuted as (s & t & R & G). assert (F : Forall (call_ok w_def) [WBeat; WWritten; WRead]) by (repeat constructor).
  destruct (C w_def [WBeat; WWritten; WRead] s t eq_refl F eq_refl R) as [r E]. rewrite G in E. vm_compute in R. injection R as _ <-. discriminate E.
Qed.
Print Assumptions C119_statement_refuted.
Theorem C119_partial : forall w l s t, beats w = false -> cfg_ok (wc w) = true -> Forall (call_ok w) l -> forallb (fun a => negb (is_foreign a)) l = true -> run w init l = Some (s, t) ->
  prefix_of (concat (got t)) (stream (wc w) (calls_only t)).
Proof.
  intros w l s t NB HC F NF R. destruct (C117_bytes w l s t HC F NF R) as [P _].
  destruct (run_call w HC l init s t Shape_init (no_foreign_ok w l F NF) (or_introl NF) R) as (_ & _ & X & _). rewrite (X NB). exact P.
Qed.
Print Assumptions C119_partial.
Example C119_ex : exists s t, run (mk_wcfg default_cfg true false) init (WBeat :: l_plain) = Some (s, t) /\ got t = [hello].
Proof. do 2 eexists. split; [vm_compute; reflexivity|]. reflexivity. Qed.
