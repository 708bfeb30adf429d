(** C128 (graceful shutdown), C129 (links carry whole messages). *)
From Coq Require Import List NArith Bool Arith Lia Permutation.
From Verif Require Import M_Bytes M_Queue M_Send S_Send M_Wire S_Wire.
From Verif Require L_Send.
Import ListNotations.
Open Scope nat_scope.

Lemma labels_app a b : labels (a ++ b) = labels a ++ labels b.
Proof. induction a as [|[l| | |] a IH]; cbn [labels app]; congruence. Qed.
Lemma wire_app a b : wire (a ++ b) = wire a ++ wire b.
Proof. induction a as [|[l|d| |] a IH]; cbn [wire app]; rewrite ?IH, ?app_assoc; reflexivity. Qed.
Lemma sent_app a b : sent (a ++ b) = sent a ++ sent b.
Proof. induction a as [|[[]|d| |] a IH]; cbn [sent app]; rewrite ?IH, ?app_assoc; reflexivity. Qed.
Lemma begun_app a b : begun (a ++ b) = begun a ++ begun b.
Proof. induction a as [|[[]|d| |] a IH]; cbn [begun app]; rewrite ?IH, ?app_assoc; reflexivity. Qed.
Lemma ups_app a b : ups (a ++ b) = ups a + ups b.
Proof. induction a as [|[[]|d| |] a IH]; cbn [ups app]; rewrite ?IH; reflexivity. Qed.
Definition is_up (e : wev) : bool := match e with WL LUp => true | _ => false end.
Lemma cur_snoc a e : cur (a ++ [e]) = if is_up e then [] else cur a ++ [e].
Proof. unfold cur. rewrite fold_left_app. cbn [fold_left]. destruct e as [[]| | |]; reflexivity. Qed.
Lemma cur_app a b : forallb (fun e => negb (is_up e)) b = true -> cur (a ++ b) = cur a ++ b.
Proof.
  revert a. induction b as [|e b IH]; intros a H; [rewrite !app_nil_r; reflexivity|]. cbn [forallb] in H. apply andb_true_iff in H as [H1 H2].
  change (a ++ e :: b) with (a ++ [e] ++ b). rewrite app_assoc, IH, cur_snoc by exact H2. destruct (is_up e); [discriminate|]. rewrite <- app_assoc. reflexivity.
Qed.
Lemma concat_items (l : list (list (list byte))) : concat (map (@concat byte) l) = concat (concat l).
Proof. induction l as [|x l IH]; [reflexivity|]. cbn [map concat]. rewrite concat_app, IH. reflexivity. Qed.

(** ** the sending side below *)
Definition plain (l : label) : bool := match l with LOk _ | LErr _ | LUp | LDown => false | _ => true end.
Lemma inner_label c s a s1 l : inner a = true -> act c s a = Some (s1, l) -> plain l = true.
Proof.
  intros I H. destruct a; cbn [inner] in I; try discriminate; cbn [act] in H.
  - destruct (nth_error (threads s) i) as [[f|]|]; [discriminate| |discriminate]. inversion H; reflexivity.
  - destruct (nth_error (threads s) i) as [[f|]|]; [|discriminate|discriminate]. destruct (exec c false s f) as [[s0 nxt] l0] eqn:E. inversion H; subst; clear H.
    destruct f; cbn [exec] in E; repeat match type of E with context [if ?b then _ else _] => destruct b end; try (inversion E; reflexivity);
      try (destruct (q_out_bytes _ _ _); inversion E; reflexivity); destruct (smsgs s); inversion E; reflexivity.
  - destruct (strand s) as [|f st]; [discriminate|]. assert (H' : exists s0 nxt l0, exec c true s f = (s0, nxt, l0) /\ l = l0).
    { destruct f; try discriminate; (destruct (exec c true s _) as [[s0 nxt] l0] eqn:E in H |- *; inversion H; subst; eauto). }
    destruct H' as (s0 & nxt & l0 & E & ->). clear H.
    destruct f; cbn [exec] in E; repeat match type of E with context [if ?b then _ else _] => destruct b end; try (inversion E; reflexivity);
      try (destruct (q_out_bytes _ _ _); inversion E; reflexivity); destruct (smsgs s); inversion E; reflexivity.
  - destruct (strand s); [|discriminate]. destruct (posted s); [discriminate|]. inversion H; reflexivity.
  - destruct (strand s); [|discriminate]. inversion H; reflexivity.
  - destruct (strand s) as [|[] st]; try discriminate. inversion H; reflexivity.
  - destruct (strand s) as [|[] st]; try discriminate. inversion H; reflexivity.
Qed.

Definition flight (s : sstate) : list (list byte) := concat (writes s).

Record K (tr : list wev) (s : wst) : Prop := {
  k_inv : L_Send.inv (labels tr) (w_s s);
  k_off : writes (w_s s) = [] -> w_off s = 0;
  k_len : forall w ws, writes (w_s s) = w :: ws -> ws = [] /\ w_off s <= length (concat w);
  k_wire : ~ In WGlitch (cur tr) ->
    (wire (cur tr) = concat (sent (cur tr)) ++ firstn (w_off s) (concat (flight (w_s s))) /\ begun (cur tr) = sent (cur tr) ++ flight (w_s s)) \/
    (w_open s = false /\ w_off s = 0 /\
       exists ms m part cut more, begun (cur tr) = ms ++ m ++ more /\ concat m = part ++ cut /\ wire (cur tr) = concat ms ++ part /\ concat (sent (cur tr)) = concat ms)
}.
Lemma K_init n : K [] (w_init n).
Proof.
  constructor; cbn.
  - exact (L_Send.inv_init n).
  - reflexivity.
  - discriminate.
  - intros _. left. split; reflexivity.
Qed.

Lemma flight_one s w : writes s = [w] -> flight s = w.
Proof. intros E. unfold flight. rewrite E. cbn [concat]. apply app_nil_r. Qed.
Lemma flight_none s : writes s = [] -> flight s = [].
Proof. intros E. unfold flight. rewrite E. reflexivity. Qed.
Lemma writes_le s tr : L_Send.inv tr s -> writes s = [] \/ exists w, writes s = [w].
Proof. intros [IT IS IO IW IK IR IE]. inversion IS; subst; eauto. Qed.
Lemma complete_0 c s ok s1 l w ws : writes s = w :: ws -> act c s (AComplete 0 ok) = Some (s1, l) ->
  l = (if ok then LOk w else LErr w) /\ writes s1 = ws.
Proof.
  intros E H. cbn [act] in H. destruct (strand s); [|discriminate]. rewrite E in H. cbn [nth_error] in H. inversion H; subst; clear H.
  split; [reflexivity|]. cbn [writes set_strand set_writes]. unfold drop_nth. reflexivity.
Qed.
Lemma up_up c s i s1 l : act c s (AUp i) = Some (s1, l) -> l = LUp /\ writes s1 = [].
Proof.
  cbn [act]. intros H. destruct (nth_error (threads s) i) as [[f|]|]; try discriminate. destruct (strand s); [|discriminate]. destruct (writes s) eqn:E; [|discriminate].
  destruct (posted s); [|discriminate]. inversion H; subst. split; [reflexivity|]. cbn [writes set_threads set_ready]. exact E.
Qed.
Lemma down_down c s s1 l : act c s ADown = Some (s1, l) -> l = LDown /\ writes s1 = writes s.
Proof. cbn [act]. intros H. inversion H; subst. split; reflexivity. Qed.
(** callers and handlers going on start at most one write *)
Lemma inner_writes c s a tr s1 l : inner a = true -> L_Send.inv tr s -> act c s a = Some (s1, l) -> L_Send.inv (tr ++ [l]) s1 ->
  plain l = true /\ (writes s1 = writes s /\ started [l] = [] \/ exists w, l = LWrite w /\ writes s = [] /\ writes s1 = [w]).
Proof.
  intros I IV H IV1. pose proof (inner_label _ _ _ _ _ I H) as P. split; [exact P|].
  pose proof (L_Send.i_writes _ _ IV) as W. pose proof (L_Send.i_writes _ _ IV1) as W1. rewrite L_Send.started_app, L_Send.finished_app in W1.
  rewrite W in W1. destruct l; cbn [plain] in P; try discriminate; cbn [started finished] in *; rewrite ?app_nil_r in W1;
    try (left; split; [apply app_inv_head in W1; symmetry; exact W1|reflexivity]).
  right. exists it. rewrite <- app_assoc in W1. apply app_inv_head in W1. destruct (writes_le _ _ IV1) as [E|(w & E)]; rewrite E in W1.
  - destruct (writes s); discriminate.
  - destruct (writes s) as [|x [|]]; try discriminate. cbn [app] in W1. inversion W1; subst. auto.
Qed.
Lemma not_glitch a e : ~ In WGlitch (cur (a ++ [e])) -> is_up e = false -> ~ In WGlitch (cur a) /\ e <> WGlitch.
Proof. rewrite cur_snoc. intros H U. rewrite U in H. split; intros X; apply H; apply in_or_app; [left; exact X|right; left; exact X]. Qed.
Lemma firstn_skipn_app {A} (l : list A) a b : firstn a l ++ firstn b (skipn a l) = firstn (a + b) l.
Proof. revert l. induction a as [|a IH]; intros l; [reflexivity|]. destruct l as [|x l]; cbn [firstn skipn app Nat.add]; [rewrite firstn_nil; reflexivity|]. rewrite IH. reflexivity. Qed.

Ltac pj := cbn [w_s w_off w_open] in *.
Lemma K_step c s a s1 t1 tr : K tr s -> wstep c s a = Some (s1, t1) -> K (tr ++ t1) s1.
Proof.
  intros [KI KO KL KW] H. destruct a; cbn [wstep] in H.
  - destruct (inner a) eqn:I; [|discriminate]. unfold lift in H. destruct (act c (w_s s) a) as [[s0 l]|] eqn:A; [|discriminate]. inversion H; subst; clear H.
    pose proof (L_Send.act_inv c _ _ _ _ _ KI A) as IV1. destruct (inner_writes _ _ _ _ _ _ I KI A IV1) as (P & WW).
    assert (UP : is_up (WL l) = false) by (destruct l; try reflexivity; discriminate).
    constructor; pj.
    + rewrite labels_app. exact IV1.
    + intros E. destruct WW as [(E1 & _)|(w & _ & _ & E1)]; [rewrite E1 in E; exact (KO E)|congruence].
    + intros w ws E. destruct WW as [(E1 & _)|(w' & _ & E0 & E1)]; [rewrite E1 in E; exact (KL _ _ E)|]. rewrite E1 in E. inversion E; subst. rewrite (KO E0). split; [reflexivity|lia].
    + intros G. destruct (not_glitch _ _ G UP) as (G1 & _). specialize (KW G1). rewrite cur_snoc, UP, wire_app, sent_app, begun_app. cbn [wire]. rewrite app_nil_r.
      assert (S0 : sent [WL l] = []) by (destruct l; try reflexivity; discriminate). rewrite S0, app_nil_r.
      destruct WW as [(E1 & ST)|(w & -> & E0 & E1)].
      * assert (B0 : begun [WL l] = []) by (destruct l; try reflexivity; discriminate). rewrite B0, app_nil_r. unfold flight in *. rewrite E1. exact KW.
      * cbn [begun]. rewrite app_nil_r. destruct KW as [(W1 & W2)|(W0 & W1 & ms & m & part & cut & more & W2 & W3 & W4 & W5)].
        -- left. rewrite (flight_none _ E0) in *. rewrite (KO E0) in *. rewrite (flight_one _ _ E1). split; [exact W1|]. rewrite W2, app_nil_r. reflexivity.
        -- right. split; [exact W0|]. split; [exact W1|]. exists ms, m, part, cut, (more ++ w). rewrite W2. repeat split; auto. rewrite !app_assoc. reflexivity.
  - destruct (writes (w_s s)) as [|w ws] eqn:E; [discriminate|]. destruct (w_open s && (0 <? n) && (w_off s + n <=? length (concat w))) eqn:B; [|discriminate]. inversion H; subst; clear H.
    apply andb_true_iff in B as [B B3]. apply andb_true_iff in B as [B1 B2]. apply Nat.ltb_lt in B2. apply Nat.leb_le in B3. destruct (KL _ _ eq_refl) as (-> & L).
    constructor; pj.
    + rewrite labels_app. cbn [labels]. rewrite app_nil_r. exact KI.
    + rewrite E. discriminate.
    + intros w' ws E'. rewrite E in E'. inversion E'; subst. split; [reflexivity|lia].
    + intros G. destruct (not_glitch _ _ G eq_refl) as (G1 & _). specialize (KW G1). rewrite cur_snoc. cbn [is_up]. rewrite wire_app, sent_app, begun_app. cbn [wire sent begun]. rewrite !app_nil_r.
      destruct KW as [(W1 & W2)|(W0 & _)]; [|congruence]. left. rewrite (flight_one _ _ E) in *. split; [|exact W2]. rewrite W1, <- app_assoc, firstn_skipn_app. reflexivity.
  - destruct (writes (w_s s)) as [|w ws] eqn:E; [discriminate|]. destruct (w_off s =? length (concat w)) eqn:B; [|discriminate]. apply Nat.eqb_eq in B.
    unfold lift in H. destruct (act c (w_s s) (AComplete 0 true)) as [[s0 l]|] eqn:A; [|discriminate]. inversion H; subst; clear H.
    pose proof (L_Send.act_inv c _ _ _ _ _ KI A) as IV1. destruct (complete_0 _ _ _ _ _ _ _ E A) as (-> & E1). destruct (KL _ _ eq_refl) as (-> & L).
    constructor; pj.
    + rewrite labels_app. exact IV1.
    + reflexivity.
    + intros w' ws E'. congruence.
    + intros G. destruct (not_glitch _ _ G eq_refl) as (G1 & _). specialize (KW G1). rewrite cur_snoc. cbn [is_up]. rewrite wire_app, sent_app, begun_app. cbn [wire sent begun]. rewrite !app_nil_r.
      destruct KW as [(W1 & W2)|(W0 & W1 & ms & m & part & cut & more & W2 & W3 & W4 & W5)].
      * left. rewrite (flight_one _ _ E) in *. rewrite (flight_none _ E1). cbn [concat firstn]. rewrite !app_nil_r, concat_app. split; [rewrite W1, B, firstn_all; reflexivity|]. rewrite W2. reflexivity.
      * right. split; [exact W0|]. split; [reflexivity|]. exists ms, m, part, cut, more. repeat split; auto. rewrite concat_app, W5. rewrite W1 in B. destruct (concat w); [apply app_nil_r|discriminate].
  - destruct (writes (w_s s)) as [|w ws] eqn:E; [discriminate|]. destruct (negb (w_open s) && (w_off s <? length (concat w))) eqn:B; [|discriminate]. apply andb_true_iff in B as [B1 B2]. apply negb_true_iff in B1.
    unfold lift in H. destruct (act c (w_s s) (AComplete 0 false)) as [[s0 l]|] eqn:A; [|discriminate]. inversion H; subst; clear H.
    pose proof (L_Send.act_inv c _ _ _ _ _ KI A) as IV1. destruct (complete_0 _ _ _ _ _ _ _ E A) as (-> & E1). destruct (KL _ _ eq_refl) as (-> & L).
    constructor; pj.
    + rewrite labels_app. exact IV1.
    + reflexivity.
    + intros w' ws E'. congruence.
    + intros G. destruct (not_glitch _ _ G eq_refl) as (G1 & _). specialize (KW G1). rewrite cur_snoc. cbn [is_up]. rewrite wire_app, sent_app, begun_app. cbn [wire sent begun]. rewrite !app_nil_r.
      right. split; [exact B1|]. split; [reflexivity|]. destruct KW as [(W1 & W2)|(W0 & W1 & ms & m & part & cut & more & W2 & W3 & W4 & W5)].
      * rewrite (flight_one _ _ E) in *. exists (sent (cur tr)), w, (firstn (w_off s) (concat w)), (skipn (w_off s) (concat w)), []. rewrite app_nil_r. repeat split; auto. symmetry. apply firstn_skipn.
      * exists ms, m, part, cut, more. auto.
  - destruct (writes (w_s s)) as [|w ws] eqn:E; [discriminate|]. destruct (w_open s && (w_off s <? length (concat w))) eqn:B; [|discriminate].
    unfold lift in H. destruct (act c (w_s s) (AComplete 0 false)) as [[s0 l]|] eqn:A; [|discriminate]. inversion H; subst; clear H.
    pose proof (L_Send.act_inv c _ _ _ _ _ KI A) as IV1. destruct (complete_0 _ _ _ _ _ _ _ E A) as (-> & E1). destruct (KL _ _ eq_refl) as (-> & L).
    constructor; pj.
    + rewrite labels_app. exact IV1.
    + reflexivity.
    + intros w' ws E'. congruence.
    + intros G. exfalso. apply G. change [WL (LErr w); WGlitch] with ([WL (LErr w)] ++ [WGlitch]). rewrite app_assoc, cur_snoc. cbn [is_up]. apply in_or_app. right. left. reflexivity.
  - destruct (in_strand (w_s s) && ready (w_s s)); [|discriminate]. unfold lift in H. destruct (act c (w_s s) ADown) as [[s0 l]|] eqn:A; [|discriminate]. inversion H; subst; clear H.
    pose proof (L_Send.act_inv c _ _ _ _ _ KI A) as IV1. destruct (down_down _ _ _ _ A) as (-> & E1).
    constructor; pj.
    + rewrite labels_app. exact IV1.
    + rewrite E1. exact KO.
    + rewrite E1. exact KL.
    + rewrite cur_app by reflexivity. intros G. assert (G1 : ~ In WGlitch (cur tr)) by (intros X; apply G; apply in_or_app; left; exact X). specialize (KW G1).
      rewrite wire_app, sent_app, begun_app. cbn [wire sent begun]. rewrite !app_nil_r. unfold flight in *. rewrite E1. destruct KW as [KW|(_ & KW)]; [left; exact KW|right; split; [reflexivity|exact KW]].
  - destruct (in_strand (w_s s)); [|discriminate]. unfold lift in H. destruct (act c (w_s s) ADown) as [[s0 l]|] eqn:A; [|discriminate]. inversion H; subst; clear H.
    pose proof (L_Send.act_inv c _ _ _ _ _ KI A) as IV1. destruct (down_down _ _ _ _ A) as (-> & E1).
    constructor; pj.
    + rewrite labels_app. exact IV1.
    + rewrite E1. exact KO.
    + rewrite E1. exact KL.
    + rewrite cur_app by reflexivity. intros G. assert (G1 : ~ In WGlitch (cur tr)) by (intros X; apply G; apply in_or_app; left; exact X). specialize (KW G1).
      rewrite wire_app, sent_app, begun_app. cbn [wire sent begun]. rewrite !app_nil_r. unfold flight in *. rewrite E1. destruct KW as [KW|(_ & KW)]; [left; exact KW|right; split; [reflexivity|exact KW]].
  - inversion H; subst; clear H. rewrite app_nil_r. constructor; pj; auto. intros G. specialize (KW G). destruct KW as [KW|(_ & KW)]; [left; exact KW|right; split; [reflexivity|exact KW]].
  - destruct (ready (w_s s)); [discriminate|]. unfold lift in H. destruct (act c (w_s s) (AUp i)) as [[s0 l]|] eqn:A; [|discriminate]. inversion H; subst; clear H.
    pose proof (L_Send.act_inv c _ _ _ _ _ KI A) as IV1. destruct (up_up _ _ _ _ _ A) as (-> & E1).
    constructor; pj.
    + rewrite labels_app. exact IV1.
    + reflexivity.
    + intros w ws E. congruence.
    + intros _. rewrite cur_snoc. cbn [is_up wire sent begun]. left. rewrite (flight_none _ E1). split; reflexivity.
Qed.
Lemma K_run c l : forall s tr s1 t1, K tr s -> wrun c s l = Some (s1, t1) -> K (tr ++ t1) s1.
Proof.
  induction l as [|a l IH]; intros s tr s1 t1 I H; cbn [wrun] in H; [inversion H; subst; rewrite app_nil_r; exact I|].
  destruct (wstep c s a) as [[s0 t0]|] eqn:E; [|discriminate]. destruct (wrun c s0 l) as [[s2 t2]|] eqn:E2; [|discriminate]. inversion H; subst.
  rewrite app_assoc. exact (IH _ _ _ _ (K_step _ _ _ _ _ _ I E) E2).
Qed.
Lemma K_all c n l s tr : wrun c (w_init n) l = Some (s, tr) -> K tr s.
Proof. intros H. exact (K_run _ _ _ _ _ _ (K_init n) H). Qed.

(** ** C129: links carry whole messages *)
Lemma cut_items (m : list (list byte)) : forall part cut, concat m = part ++ cut ->
  part = concat m \/ exists ms x more p q, m = ms ++ x :: more /\ x = p ++ q /\ part = concat ms ++ p.
Proof.
  induction m as [|x m IH]; intros part cut H.
  - left. cbn in H. destruct part; [reflexivity|discriminate].
  - cbn [concat] in H. destruct (app_eq_app _ _ _ _ H) as (d & [(H1 & H2)|(H1 & H2)]).
    + right. exists [], x, m, part, d. repeat split; auto.
    + destruct (IH d cut H2) as [E|(ms & y & more & p & q & E1 & E2 & E3)].
      * left. rewrite H1, E. reflexivity.
      * right. exists (x :: ms), y, more, p, q. rewrite E1, H1, E3. cbn [app concat]. rewrite app_assoc. auto.
Qed.
Lemma whole_of tr m part cut more ms : begun tr = ms ++ m ++ more -> concat m = part ++ cut -> wire tr = concat ms ++ part -> whole tr.
Proof.
  intros B C W. destruct (cut_items _ _ _ C) as [E|(ms' & x & more' & p & q & E1 & E2 & E3)].
  - destruct more as [|y more].
    + apply all_whole. rewrite B, W, E, app_nil_r, concat_app. reflexivity.
    + apply (one_cut tr (ms ++ m) y more [] y); [rewrite B, app_assoc; reflexivity|reflexivity|]. rewrite W, E, concat_app, app_nil_r. reflexivity.
  - apply (one_cut tr (ms ++ ms') x (more' ++ more) p q); [rewrite B, E1, <- !app_assoc; reflexivity|exact E2|]. rewrite W, E3, concat_app, app_assoc. reflexivity.
Qed.

(** The full claim. *)
Definition C129_statement : Prop := forall c n l s tr, wrun c (w_init n) l = Some (s, tr) -> whole (cur tr) /\ framed_link tr.
Definition ex_cfg : send_cfg := mk_sc 1048576 65536 (2^64)%N.
Definition m1 : list byte := [Byte.x61; Byte.x62]. Definition m2 : list byte := [Byte.x63]. Definition m3 : list byte := [Byte.x64; Byte.x65].
(** the link is established; nothing waits *)
Definition conn : list wact := [WUp 0; WSend (AThread 0); WSend (AThread 0); WSend ATask] ++ repeat (WSend AStrand) 5.
(** thread [i] sends [m] while nothing is being sent: the write is started *)
Definition send_now (i : nat) (m : list byte) : list wact :=
  [WSend (ACall i [m] false false)] ++ repeat (WSend (AThread i)) 4 ++ [WSend ATask] ++ repeat (WSend AStrand) 3.
(** thread [i] sends [m] while a write is in flight or the link is down: it waits in the buffer *)
Definition send_wait (i : nat) (m : list byte) (k : nat) : list wact := [WSend (ACall i [m] false false)] ++ repeat (WSend (AThread i)) k.
Definition handler_err : list wact := WSend AUserRet :: repeat (WSend AStrand) 2.
Definition handler_ok (k : nat) : list wact := WSend AUserRet :: repeat (WSend AStrand) k.
Definition glitch : list wact := conn ++ send_now 0 m1 ++ [WTake 1; WErr] ++ handler_err ++ send_now 0 m2 ++ [WTake 1; WDone] ++ handler_ok 5.
(** A write that fails half-way while the link goes on working: the peer gets half a message, directly followed by the next one. *)
Theorem C129_refuted : exists s tr, wrun ex_cfg (w_init 1) glitch = Some (s, tr) /\
  wire (cur tr) = [Byte.x61; Byte.x63] /\ begun (cur tr) = [m1; m2] /\ sent (cur tr) = [m2] /\ ready (w_s s) = true /\ w_open s = true.
Proof. do 2 eexists. split; [vm_compute; reflexivity|]. repeat match goal with |- _ /\ _ => split end; vm_compute; reflexivity. Qed.
(** A send call that puts more than one item into the send buffer: a frame, header and body, is in two items. The first link breaks
    after the header was written; the second link starts with the body. *)
Definition head2 : list byte := [Byte.x00; Byte.x04].
Definition cfg1 : send_cfg := mk_sc 1048576 0 (2^64)%N.   (* ST_ASIO_WANT_MSG_SEND_NOTIFY: one item per write *)
Definition split_try : list wact := conn ++ [WSend (ACall 0 [head2; m1] false false)] ++ repeat (WSend (AThread 0)) 4 ++ [WSend ATask] ++ repeat (WSend AStrand) 3 ++
  [WTake 1; WBreak; WFail] ++ handler_err ++ [WForce; WUp 0; WSend (AThread 0); WSend (AThread 0); WSend ATask; WSend AStrand; WSend AStrand; WSend AStrand; WTake 2].
Theorem C129_split_refuted : exists s tr, wrun cfg1 (w_init 1) split_try = Some (s, tr) /\
  frames (labels tr) = [head2 ++ m1] /\ wire (cur tr) = m1 /\ ups tr = 2 /\ existsb (fun e => match e with WGlitch => true | _ => false end) tr = false /\ ~ framed_link tr.
Proof.
  do 2 eexists. split; [vm_compute; reflexivity|]. match goal with |- frames (labels ?t) = _ /\ _ => set (tr := t) end.
  assert (F : frames (labels tr) = [head2 ++ m1]) by (vm_compute; reflexivity). assert (W : wire (cur tr) = m1) by (vm_compute; reflexivity).
  split; [exact F|]. split; [exact W|]. split; [vm_compute; reflexivity|]. split; [vm_compute; reflexivity|].
  intros (fs & rest & H1 & H2). rewrite F in H1. rewrite W in H2. destruct fs as [|f fs]; [discriminate H2|].
  inversion H1 as [|? ? H3 H4]; subst. destruct H3 as [H3|[]]. rewrite <- H3 in H2. discriminate H2.
Qed.
Theorem C129_statement_refuted : ~ C129_statement.
Proof.
  intros H. destruct C129_refuted as (s & tr & E & W & B & _). specialize (H _ _ _ _ _ E). clear E. destruct H as [[H|ms m more part cut H1 H2 H3] _].
  - rewrite W, B in H. discriminate H.
  - rewrite B in H1. rewrite W in H3. destruct ms as [|x [|y ms]]; cbn [app] in H1.
    + injection H1 as H1 _. rewrite H2 in H1. cbn [concat app] in H3. rewrite <- H3 in H1. discriminate H1.
    + injection H1 as H1 _ _. rewrite <- H1 in H3. cbn [concat app] in H3. discriminate H3.
    + destruct ms; discriminate H1.
Qed.
(** The part that holds: unless a write fails on a link that goes on working, every link of the socket - the first one and those made
    after former links broke or were shut down - carries whole messages in the order they were handed over, starting with the first
    message handed over on this link; only the last one may be cut. What was reported as sent is there completely. *)
Theorem C129_partial c n l s tr : wrun c (w_init n) l = Some (s, tr) -> ~ In WGlitch (cur tr) ->
  whole (cur tr) /\ exists more, wire (cur tr) = concat (sent (cur tr)) ++ more.
Proof.
  intros H G. pose proof (K_all _ _ _ _ _ H) as [KI KO KL KW]. destruct (KW G) as [(W1 & W2)|(_ & _ & ms & m & part & cut & more & W2 & W3 & W4 & W5)].
  - split; [|eexists; exact W1]. apply (whole_of (cur tr) (flight (w_s s)) (firstn (w_off s) (concat (flight (w_s s)))) (skipn (w_off s) (concat (flight (w_s s)))) [] (sent (cur tr))).
    + rewrite app_nil_r. exact W2.
    + symmetry. apply firstn_skipn.
    + exact W1.
  - split; [|exists part; rewrite W5; exact W4]. exact (whole_of (cur tr) m part cut more ms W2 W3 W4).
Qed.
(** the first link breaks in the middle of a message; two messages wait; the second link starts with the first of them *)
Definition ex_break : list wact := conn ++ send_now 0 m1 ++ send_wait 0 m2 4 ++ [WTake 1; WBreak; WFail] ++ handler_err ++ [WForce] ++ send_wait 0 m3 3 ++
  [WUp 0; WSend (AThread 0); WSend (AThread 0); WSend ATask; WSend AStrand; WSend AStrand; WSend AStrand; WTake 2].
Example C129_example : exists s tr, wrun ex_cfg (w_init 1) ex_break = Some (s, tr) /\ ups tr = 2 /\ wire tr = [Byte.x61; Byte.x63; Byte.x64] /\
  wire (cur tr) = [Byte.x63; Byte.x64] /\ begun (cur tr) = [m2; m3] /\ existsb (fun e => match e with WGlitch => true | _ => false end) tr = false.
Proof. do 2 eexists. split; [vm_compute; reflexivity|]. repeat match goal with |- _ /\ _ => split end; vm_compute; reflexivity. Qed.
Print Assumptions C129_partial.
Print Assumptions C129_refuted.

(** frames *)
Lemma wstep_act c s a s1 t1 : wstep c s a = Some (s1, t1) ->
  (w_s s1 = w_s s /\ labels t1 = []) \/ exists b l, act c (w_s s) b = Some (w_s s1, l) /\ labels t1 = [l].
Proof.
  intros H. destruct a; cbn [wstep] in H; unfold lift in H.
  - destruct (inner a); [|discriminate]. destruct (act c (w_s s) a) as [[s0 l]|] eqn:A; [|discriminate]. inversion H; subst. right. eauto.
  - destruct (writes (w_s s)); [discriminate|]. destruct (_ && _); [|discriminate]. inversion H; subst. left. auto.
  - destruct (writes (w_s s)); [discriminate|]. destruct (_ =? _); [|discriminate]. destruct (act c (w_s s) (AComplete 0 true)) as [[s0 x]|] eqn:A; [|discriminate]. inversion H; subst. right. eauto.
  - destruct (writes (w_s s)); [discriminate|]. destruct (_ && _); [|discriminate]. destruct (act c (w_s s) (AComplete 0 false)) as [[s0 x]|] eqn:A; [|discriminate]. inversion H; subst. right. eauto.
  - destruct (writes (w_s s)); [discriminate|]. destruct (_ && _); [|discriminate]. destruct (act c (w_s s) (AComplete 0 false)) as [[s0 x]|] eqn:A; [|discriminate]. inversion H; subst. right. eauto.
  - destruct (_ && _); [|discriminate]. destruct (act c (w_s s) ADown) as [[s0 x]|] eqn:A; [|discriminate]. inversion H; subst. right. eauto.
  - destruct (in_strand _); [|discriminate]. destruct (act c (w_s s) ADown) as [[s0 x]|] eqn:A; [|discriminate]. inversion H; subst. right. eauto.
  - inversion H; subst. left. auto.
  - destruct (ready _); [discriminate|]. destruct (act c (w_s s) (AUp i)) as [[s0 x]|] eqn:A; [|discriminate]. inversion H; subst. right. eauto.
Qed.
(** the messages queued are those handed over and those waiting *)
Definition perm (tr : list label) (s : sstate) : Prop := Permutation (handed tr ++ L_Send.mid s ++ sb s) (queued tr).
Lemma perm_act c s a s1 l tr : L_Send.inv tr s -> perm tr s -> act c s a = Some (s1, l) -> perm (tr ++ [l]) s1.
Proof.
  intros IV P A. destruct (L_Send.act_flow _ _ _ _ _ _ IV A) as (F & FP). unfold perm in *. rewrite L_Send.handed_app, L_Send.queued_app.
  destruct l as [[|] it| |w|w|w| | |]; cbn [handed queued L_Send.flow] in *; rewrite ?app_nil_r; try (rewrite F; exact P).
  - destruct FP as (-> & ->). rewrite <- P. rewrite <- !app_assoc. apply Permutation_app_head. apply Permutation_app_head. apply Permutation_app_comm.
  - rewrite F, app_assoc. apply Permutation_app_tail. exact P.
  - rewrite <- app_assoc, F. exact P.
Qed.
(** nothing is written before the first link *)
Definition calm_frame (f : frame) : Prop := match f with FUser | FCheck _ _ _ | FEnq _ _ | FReady => True | _ => False end.
Record quiet (s : sstate) : Prop := {
  q_ready : ready s = false; q_writes : writes s = []; q_posted : posted s = 0;
  q_thr : forall f, In (Some f) (threads s) -> calm_frame f; q_str : forall f, In f (strand s) -> calm_frame f }.
Lemma quiet_exec c here s f s1 nxt l : quiet s -> calm_frame f -> exec c here s f = (s1, nxt, l) ->
  quiet s1 /\ threads s1 = threads s /\ strand s1 = strand s /\ match nxt with Some g => calm_frame g | None => True end /\ l <> LUp /\ handed [l] = [].
Proof.
  intros Q C E. assert (Q0 := Q). destruct Q0 as [Q1 Q2 Q3 Q4 Q5]. destruct f; try contradiction C; cbn [exec] in E.
  - inversion E; subst. repeat split; auto; discriminate.
  - destruct (_ || _); inversion E; subst; (split; [exact Q|]); repeat split; auto; discriminate.
  - inversion E; subst. split; [constructor; cbn [ready writes posted threads strand set_sb]; auto|]. repeat split; auto; discriminate.
  - rewrite Q1 in E. inversion E; subst. split; [exact Q|]. repeat split; auto; discriminate.
Qed.
Ltac sj := cbn [ready writes posted threads strand set_sb set_strand set_threads set_writes set_posted set_ready] in *.
Lemma quiet_act c s a s1 l : quiet s -> act c s a = Some (s1, l) -> l = LUp \/ quiet s1 /\ handed [l] = [].
Proof.
  intros Q H. assert (Q0 := Q). destruct Q0 as [Q1 Q2 Q3 Q4 Q5]. destruct a as [i it p ovf|i| | | |it p ovf| |k ok|i|]; cbn [act] in H.
  - destruct (nth_error (threads s) i) as [[f|]|]; try discriminate. inversion H; subst. right. split; [|reflexivity]. constructor; sj; auto.
    intros f I. apply L_Send.put_In in I as [I|I]; [inversion I; exact Logic.I|auto].
  - destruct (nth_error (threads s) i) as [[f|]|] eqn:EN; try discriminate. destruct (exec c false s f) as [[s0 nxt] l0] eqn:E. inversion H; subst; clear H.
    destruct (quiet_exec _ _ _ _ _ _ _ Q (Q4 _ (nth_error_In _ _ EN)) E) as ([R1 R2 R3 R4 R5] & T & S & N & NU & HN). right. split; [|exact HN]. constructor; sj; auto.
    intros g I. apply L_Send.put_In in I as [I|I]; [destruct nxt; [inversion I; subst; exact N|discriminate]|auto].
  - destruct (strand s) as [|f st] eqn:ES; [discriminate|]. assert (H' : exists s0 nxt l0, exec c true s f = (s0, nxt, l0) /\ l = l0 /\ s1 = set_strand s0 (push nxt st)).
    { destruct f; try discriminate; (destruct (exec c true s _) as [[s0 nxt] l0] eqn:E in H |- *; inversion H; subst; eauto 6). }
    destruct H' as (s0 & nxt & l0 & E & -> & ->). clear H.
    destruct (quiet_exec _ _ _ _ _ _ _ Q (Q5 f (or_introl eq_refl)) E) as ([R1 R2 R3 R4 R5] & T & S & N & NU & HN). right. split; [|exact HN]. constructor; sj; auto.
    intros g I. destruct nxt as [x|]; cbn [push] in I; [destruct I as [<-|I]; [exact N|]|]; apply Q5; right; exact I.
  - destruct (strand s); [|discriminate]. rewrite Q3 in H. discriminate.
  - destruct (strand s) eqn:ES; [|discriminate]. inversion H; subst. right. split; [|reflexivity]. constructor; sj; auto. intros f [<-|[]]; exact I.
  - destruct (strand s) as [|[] st] eqn:ES; try discriminate. inversion H; subst. right. split; [|reflexivity]. constructor; sj; auto. intros f [<-|I]; [exact Logic.I|auto].
  - destruct (strand s) as [|[] st] eqn:ES; try discriminate. inversion H; subst. right. split; [|reflexivity]. constructor; sj; auto. intros f I. apply Q5. right. exact I.
  - rewrite Q2 in H. destruct (strand s); [|discriminate]. destruct k; discriminate.
  - left. destruct (nth_error (threads s) i) as [[f|]|]; try discriminate. destruct (strand s); [|discriminate]. rewrite Q2, Q3 in H. inversion H; reflexivity.
  - inversion H; subst. right. split; [|reflexivity]. constructor; sj; auto.
Qed.
Lemma former_cur tr : former tr ++ cur tr = tr.
Proof.
  unfold former, cur. induction tr as [|e tr IH] using rev_ind; [reflexivity|]. rewrite !fold_left_app. cbn [fold_left].
  assert (X : snd (fold_left (fun '(f, a) e => match e with WL LUp => (f ++ a ++ [e], []) | _ => (f, a ++ [e]) end) tr ([], [])) =
              fold_left (fun acc e => match e with WL LUp => [] | _ => acc ++ [e] end) tr []).
  { clear. induction tr as [|e tr IH] using rev_ind; [reflexivity|]. rewrite !fold_left_app. cbn [fold_left]. destruct (fold_left _ tr ([], [])) as [f a]. cbn [snd] in IH. rewrite <- IH. destruct e as [[]| | |]; reflexivity. }
  destruct (fold_left _ tr ([], [])) as [f a]. cbn [fst snd] in *. rewrite <- X in *. rewrite <- IH. destruct e as [[]| | |]; cbn [fst]; rewrite ?app_nil_r, <- ?app_assoc; reflexivity.
Qed.
Lemma former_snoc tr e : former (tr ++ [e]) = if is_up e then tr ++ [e] else former tr.
Proof.
  pose proof (former_cur (tr ++ [e])) as H. rewrite cur_snoc in H. destruct (is_up e); [rewrite app_nil_r in H; exact H|].
  rewrite app_assoc in H. apply app_inj_tail in H as [H _]. pose proof (former_cur tr) as H2. rewrite <- H2 in H at 3. apply app_inv_tail in H. exact H.
Qed.
Lemma former_app tr b : forallb (fun e => negb (is_up e)) b = true -> former (tr ++ b) = former tr.
Proof.
  revert tr. induction b as [|e b IH]; intros tr H; [rewrite app_nil_r; reflexivity|]. cbn [forallb] in H. apply andb_true_iff in H as [H1 H2].
  change (tr ++ e :: b) with (tr ++ [e] ++ b). rewrite app_assoc, IH, former_snoc by exact H2. destruct (is_up e); [discriminate|reflexivity].
Qed.
Lemma begun_handed tr : begun tr = handed (labels tr).
Proof. induction tr as [|[[]|d| |] tr IH]; cbn [begun labels handed]; rewrite ?IH; reflexivity. Qed.
Lemma handed_split tr : handed (labels tr) = handed (labels (former tr)) ++ begun (cur tr).
Proof. rewrite begun_handed. rewrite <- L_Send.handed_app, <- labels_app, former_cur. reflexivity. Qed.
(** the trace of a step contains at most one label *)
Lemma wstep_ups c s a s1 t1 : wstep c s a = Some (s1, t1) -> forallb (fun e => negb (is_up e)) t1 = true \/ t1 = [WL LUp] /\ exists i, a = WUp i.
Proof.
  intros H. destruct a; cbn [wstep] in H; unfold lift in H.
  - destruct (inner a) eqn:I; [|discriminate]. destruct (act c (w_s s) a) as [[s0 l]|] eqn:A; [|discriminate]. inversion H; subst. left. pose proof (inner_label _ _ _ _ _ I A) as P. destruct l; try reflexivity; discriminate.
  - destruct (writes (w_s s)); [discriminate|]. destruct (_ && _); [|discriminate]. inversion H; subst. left. reflexivity.
  - destruct (writes (w_s s)) as [|w ws] eqn:E; [discriminate|]. destruct (_ =? _); [|discriminate]. destruct (act c (w_s s) (AComplete 0 true)) as [[s0 x]|] eqn:A; [|discriminate]. destruct (complete_0 _ _ _ _ _ _ _ E A) as (-> & _). inversion H; subst. left. reflexivity.
  - destruct (writes (w_s s)) as [|w ws] eqn:E; [discriminate|]. destruct (_ && _); [|discriminate]. destruct (act c (w_s s) (AComplete 0 false)) as [[s0 x]|] eqn:A; [|discriminate]. destruct (complete_0 _ _ _ _ _ _ _ E A) as (-> & _). inversion H; subst. left. reflexivity.
  - destruct (writes (w_s s)) as [|w ws] eqn:E; [discriminate|]. destruct (_ && _); [|discriminate]. destruct (act c (w_s s) (AComplete 0 false)) as [[s0 x]|] eqn:A; [|discriminate]. destruct (complete_0 _ _ _ _ _ _ _ E A) as (-> & _). inversion H; subst. left. reflexivity.
  - destruct (_ && _); [|discriminate]. cbn [act] in H. inversion H; subst. left. reflexivity.
  - destruct (in_strand _); [|discriminate]. cbn [act] in H. inversion H; subst. left. reflexivity.
  - inversion H; subst. left. reflexivity.
  - destruct (ready _); [discriminate|]. destruct (act c (w_s s) (AUp i)) as [[s0 x]|] eqn:A; [|discriminate]. destruct (up_up _ _ _ _ _ A) as (-> & _). inversion H; subst. right. split; [reflexivity|]. eexists. reflexivity.
Qed.
Lemma no_ups t : forallb (fun e => negb (is_up e)) t = true -> ups t = 0.
Proof. induction t as [|[[]| | |] t IH]; cbn [forallb ups is_up negb andb]; intros H; auto; discriminate. Qed.
(** all of this along a run *)
Record Z (tr : list wev) (s : wst) : Prop := {
  z_k : K tr s; z_perm : perm (labels tr) (w_s s);
  z_quiet : ups tr = 0 -> quiet (w_s s) /\ handed (labels tr) = [];
  z_first : ups tr <= 1 -> handed (labels (former tr)) = [] }.
Lemma Z_init n : Z [] (w_init n).
Proof.
  constructor; [apply K_init|unfold perm; cbn; constructor| |reflexivity]. intros _. split; [|reflexivity]. constructor; cbn; try reflexivity; try contradiction.
  intros f H. apply repeat_spec in H. discriminate.
Qed.
Lemma Z_step c s a s1 t1 tr : Z tr s -> wstep c s a = Some (s1, t1) -> Z (tr ++ t1) s1.
Proof.
  intros [ZK ZP ZQ ZF] H. assert (K1 := K_step _ _ _ _ _ _ ZK H). constructor; [exact K1| | |].
  - rewrite labels_app. destruct (wstep_act _ _ _ _ _ H) as [(E1 & E2)|(b & l & E1 & E2)]; rewrite E2; [rewrite app_nil_r, E1; exact ZP|]. exact (perm_act _ _ _ _ _ _ (k_inv _ _ ZK) ZP E1).
  - rewrite ups_app. intros U. destruct (wstep_ups _ _ _ _ _ H) as [N|(-> & _)]; [|cbn [ups] in U; lia]. rewrite (no_ups _ N) in U. destruct (ZQ ltac:(lia)) as (Q & HN).
    rewrite labels_app, L_Send.handed_app, HN. destruct (wstep_act _ _ _ _ _ H) as [(E1 & E2)|(b & l & E1 & E2)]; rewrite E2; [rewrite E1; auto|].
    destruct (quiet_act _ _ _ _ _ Q E1) as [->|(Q1 & H1)]; [|split; [exact Q1|rewrite H1; reflexivity]].
    clear - E2 N. exfalso. induction t1 as [|[l| | |] t1 IH]; cbn [labels forallb] in *; try discriminate; auto. inversion E2; subst. discriminate.
  - rewrite ups_app. intros U. destruct (wstep_ups _ _ _ _ _ H) as [N|(-> & _)].
    + rewrite former_app by exact N. apply ZF. lia.
    + rewrite former_snoc. cbn [is_up]. cbn [ups] in U. destruct (ZQ ltac:(lia)) as (_ & HN). rewrite labels_app, L_Send.handed_app, HN. reflexivity.
Qed.
Lemma Z_run c l : forall s tr s1 t1, Z tr s -> wrun c s l = Some (s1, t1) -> Z (tr ++ t1) s1.
Proof.
  induction l as [|a l IH]; intros s tr s1 t1 I H; cbn [wrun] in H; [inversion H; subst; rewrite app_nil_r; exact I|].
  destruct (wstep c s a) as [[s0 t0]|] eqn:E; [|discriminate]. destruct (wrun c s0 l) as [[s2 t2]|] eqn:E2; [|discriminate]. inversion H; subst.
  rewrite app_assoc. exact (IH _ _ _ _ (Z_step _ _ _ _ _ _ I E) E2).
Qed.
Lemma wire_prefix tr s : K tr s -> ~ In WGlitch (cur tr) -> exists more, concat (begun (cur tr)) = wire (cur tr) ++ more.
Proof.
  intros [KI KO KL KW] G. destruct (KW G) as [(W1 & W2)|(_ & _ & ms & m & part & cut & more & W2 & W3 & W4 & W5)].
  - exists (skipn (w_off s) (concat (flight (w_s s)))). rewrite W2, W1, concat_app, <- app_assoc, firstn_skipn. reflexivity.
  - exists (cut ++ concat more). rewrite W2, W4, !concat_app, W3, <- !app_assoc. reflexivity.
Qed.
Lemma frames_queued tr : concat (frames tr) = concat (queued tr).
Proof. induction tr as [|[] tr IH]; cbn [frames queued concat]; rewrite ?concat_app, ?IH; reflexivity. Qed.
Lemma single_frame tr x : single_items tr -> In x (queued tr) -> In x (frames tr).
Proof.
  induction tr as [|[] tr IH]; cbn [single_items queued frames]; intros S I; auto. destruct S as [S1 S2]. apply in_app_or in I as [I|I]; [left|right; auto].
  destruct it as [|y [|]]; try discriminate. destruct I as [->|[]]. cbn [concat]. apply app_nil_r.
Qed.
(** The part that holds for frames: unless a write fails on a link that goes on working, the first link carries whole frames; further
    links do if every send call puts one item into the send buffer (as the send functions that take arrays of buffers do). *)
Theorem C129_frames_partial c n l s tr : wrun c (w_init n) l = Some (s, tr) -> ~ In WGlitch (cur tr) ->
  (no_prior (labels tr) /\ ups tr <= 1) \/ single_items (labels tr) -> framed_link tr.
Proof.
  intros H G D. destruct (Z_run _ _ _ _ _ _ (Z_init n) H) as [ZK ZP ZQ ZF]. cbn [app] in *. destruct (wire_prefix _ _ ZK G) as (more & EW). destruct D as [(NP & U)|SI].
  - exists (frames (labels tr)), (more ++ concat (L_Send.mid (w_s s) ++ sb (w_s s))). split; [apply Forall_forall; auto|].
    rewrite frames_queued, <- (L_Send.i_order _ _ (k_inv _ _ ZK) NP), handed_split, (ZF U). cbn [app]. rewrite concat_app, EW, <- app_assoc. reflexivity.
  - exists (begun (cur tr)), more. split; [|exact EW]. apply Forall_forall. intros x I. apply (single_frame _ _ SI). apply (Permutation_in _ ZP). apply in_or_app. left. rewrite handed_split. apply in_or_app. right. exact I.
Qed.
(** ex_break: second link, single items; and a first link with a frame in two items *)
Example C129_frames_example : exists s tr, wrun ex_cfg (w_init 1) ex_break = Some (s, tr) /\ ups tr = 2 /\ single_items (labels tr) /\ wire (cur tr) = [Byte.x63; Byte.x64].
Proof. do 2 eexists. split; [vm_compute; reflexivity|]. vm_compute; repeat split. Qed.
Example C129_frames_example2 : exists s tr, wrun cfg1 (w_init 1) (firstn 23 split_try) = Some (s, tr) /\ ups tr = 1 /\ no_prior (labels tr) /\ frames (labels tr) = [head2 ++ m1] /\ wire (cur tr) = [Byte.x00].
Proof. do 2 eexists. split; [vm_compute; reflexivity|]. vm_compute; repeat split. Qed.
Print Assumptions C129_frames_partial.
Print Assumptions C129_split_refuted.

(** ** C128: graceful shutdown *)
(** nothing is broken, forced or failing: the only end of the link is the graceful one *)
Definition calm (a : wact) : bool := match a with WForce | WBreak | WErr | WUp _ => false | _ => true end.
(** The full claim: what the application handed over before it asked for a graceful shutdown has reached the peer when everything has
    come to rest. *)
Definition C128_statement : Prop := forall c n i l1 l2 s1 t1 s2 t2,
  wrun c (w_init n) (WUp i :: l1) = Some (s1, t1) -> wrun c s1 (WGraceful :: l2) = Some (s2, t2) ->
  forallb calm l1 = true -> forallb calm l2 = true -> no_prior (labels t1) -> idle (w_s s2) ->
  wire (cur (t1 ++ t2)) = concat (queued (labels t1)).
Definition before : list wact := conn ++ send_now 0 m1 ++ send_wait 0 m2 4 ++ [WTake 1].
(** A message is being written and another one waits: the peer gets the first half of the first one and the end of the stream; the
    second one still waits, nobody is told about it. *)
Theorem C128_refuted : exists s1 t1 s2 t2,
  wrun ex_cfg (w_init 1) before = Some (s1, t1) /\ wrun ex_cfg s1 ([WGraceful; WFail] ++ handler_err) = Some (s2, t2) /\
  queued (labels t1) = [m1; m2] /\ wire (cur (t1 ++ t2)) = [Byte.x61] /\ idle (w_s s2) /\ sb (w_s s2) = [m2] /\ finished (labels (t1 ++ t2)) = [[m1]].
Proof. do 4 eexists. split; [vm_compute; reflexivity|]. split; [vm_compute; reflexivity|]. repeat match goal with |- _ /\ _ => split end; vm_compute; try reflexivity; repeat constructor. Qed.
(** Even a write that is complete does not help the message behind it. *)
Theorem C128_waiting_refuted : exists s1 t1 s2 t2,
  wrun ex_cfg (w_init 1) (before ++ [WTake 1]) = Some (s1, t1) /\ wrun ex_cfg s1 ([WGraceful; WDone] ++ handler_ok 4 ++ [WFail] ++ handler_err) = Some (s2, t2) /\
  queued (labels t1) = [m1; m2] /\ wire (cur (t1 ++ t2)) = m1 /\ idle (w_s s2) /\ finished (labels (t1 ++ t2)) = [[m1]; [m2]].
Proof. do 4 eexists. split; [vm_compute; reflexivity|]. split; [vm_compute; reflexivity|]. repeat match goal with |- _ /\ _ => split end; vm_compute; try reflexivity; repeat constructor. Qed.
Theorem C128_statement_refuted : ~ C128_statement.
Proof.
  intros H. destruct C128_refuted as (s1 & t1 & s2 & t2 & E1 & E2 & Q & W & ID & _).
  assert (EB : before = WUp 0 :: tl before) by reflexivity. rewrite EB in E1.
  specialize (H ex_cfg 1 0 (tl before) ([WFail] ++ handler_err) s1 t1 s2 t2 E1 E2 eq_refl eq_refl).
  assert (NP : no_prior (labels t1)). { assert (E3 := E1). vm_compute in E3. inversion E3; subst. vm_compute. exact I. }
  specialize (H NP ID). rewrite Q, W in H. clear - H. discriminate H.
Qed.

Lemma shut_step c s a s1 t1 : w_open s = false -> wstep c s a = Some (s1, t1) -> (exists i, a = WUp i) \/ w_open s1 = false /\ wire t1 = [] /\ forallb (fun e => negb (is_up e)) t1 = true.
Proof.
  intros O H. destruct a; cbn [wstep] in H; [| | | | | | | |left; eexists; reflexivity]; right.
  - destruct (inner a) eqn:I; [|discriminate]. unfold lift in H. destruct (act c (w_s s) a) as [[s0 l]|] eqn:A; [|discriminate]. inversion H; subst; clear H. pj. split; [exact O|]. split; [reflexivity|].
    pose proof (inner_label _ _ _ _ _ I A) as P. destruct l; try reflexivity; discriminate.
  - rewrite O in H. destruct (writes (w_s s)); discriminate.
  - destruct (writes (w_s s)) as [|w ws] eqn:E; [discriminate|]. destruct (_ =? _); [|discriminate]. unfold lift in H. destruct (act c (w_s s) (AComplete 0 true)) as [[s0 l]|] eqn:A; [|discriminate]. destruct (complete_0 _ _ _ _ _ _ _ E A) as (-> & _). inversion H; subst; clear H. auto.
  - destruct (writes (w_s s)) as [|w ws] eqn:E; [discriminate|]. destruct (_ && _); [|discriminate]. unfold lift in H. destruct (act c (w_s s) (AComplete 0 false)) as [[s0 l]|] eqn:A; [|discriminate]. destruct (complete_0 _ _ _ _ _ _ _ E A) as (-> & _). inversion H; subst; clear H. auto.
  - rewrite O in H. destruct (writes (w_s s)); discriminate.
  - destruct (_ && _); [|discriminate]. unfold lift in H. cbn [act] in H. inversion H; subst; clear H. auto.
  - destruct (in_strand (w_s s)); [|discriminate]. unfold lift in H. cbn [act] in H. inversion H; subst; clear H. auto.
  - inversion H; subst; clear H. auto.
Qed.
Definition no_up (a : wact) : bool := match a with WUp _ => false | _ => true end.
Lemma shut_run c l : forall s s1 t1, w_open s = false -> forallb no_up l = true -> wrun c s l = Some (s1, t1) -> wire t1 = [] /\ forallb (fun e => negb (is_up e)) t1 = true.
Proof.
  induction l as [|a l IH]; intros s s1 t1 O N H; cbn [wrun] in H; [inversion H; auto|]. cbn [forallb] in N. apply andb_true_iff in N as [N1 N2].
  destruct (wstep c s a) as [[s0 t0]|] eqn:E; [|discriminate]. destruct (wrun c s0 l) as [[s2 t2]|] eqn:E2; [|discriminate]. inversion H; subst; clear H.
  destruct (shut_step _ _ _ _ _ O E) as [(i & ->)|(O1 & W1 & U1)]; [discriminate|]. destruct (IH _ _ _ O1 N2 E2) as (W2 & U2). rewrite wire_app, W1, W2, forallb_app, U1, U2. auto.
Qed.
(** The part that holds. When everything handed over so far was reported as sent before the graceful shutdown, then the peer gets
    exactly that, whatever happens afterwards on this link: nothing that is handed over later is put behind it. *)
Theorem C128_reported_partial c n l1 l2 s1 t1 s2 t2 :
  wrun c (w_init n) l1 = Some (s1, t1) -> wrun c s1 (WGraceful :: l2) = Some (s2, t2) -> forallb no_up l2 = true ->
  ~ In WGlitch (cur t1) -> no_prior (labels t1) -> sent (cur t1) = queued (labels t1) ->
  wire (cur (t1 ++ t2)) = concat (queued (labels t1)).
Proof.
  intros H1 H2 NU G NP SQ. pose proof (K_all _ _ _ _ _ H1) as [KI KO KL KW].
  assert (TT : wire t2 = [] /\ forallb (fun e => negb (is_up e)) t2 = true).
  { cbn [wrun] in H2. destruct (wstep c s1 WGraceful) as [[s0 t0]|] eqn:E; [|discriminate]. destruct (wrun c s0 l2) as [[s3 t3]|] eqn:E2; [|discriminate]. inversion H2; subst; clear H2.
    cbn [wstep] in E. destruct (_ && _); [|discriminate]. unfold lift in E. cbn [act] in E. inversion E; subst; clear E. apply (shut_run c l2) in E2; [|reflexivity|exact NU]. exact E2. }
  destruct TT as (W0 & U0). rewrite cur_app, wire_app, W0, app_nil_r by exact U0.
  pose proof (L_Send.i_order _ _ KI NP) as OR.
  assert (BH : forall t, exists pre, handed (labels t) = pre ++ begun (cur t)).
  { intros t. induction t as [|e t IH] using rev_ind; [exists []; reflexivity|]. destruct IH as (pre & IH). rewrite cur_snoc, labels_app, L_Send.handed_app. destruct (is_up e) eqn:U.
    - exists (handed (labels t) ++ handed (labels [e])). rewrite app_nil_r. reflexivity.
    - exists pre. rewrite IH, begun_app, <- app_assoc. destruct e as [[]| | |]; cbn [labels handed begun]; rewrite ?app_nil_r; reflexivity. }
  destruct (BH t1) as (pre & EH). rewrite EH, <- SQ in OR.
  destruct (KW G) as [(W1 & W2)|(_ & _ & ms & m & part & cut & more & W2 & W3 & W4 & W5)].
  - rewrite W2 in OR. assert (F : flight (w_s s1) = []). { apply (f_equal (@length _)) in OR. rewrite !app_length in OR. destruct (flight (w_s s1)); [reflexivity|cbn [length] in OR; lia]. }
    rewrite W1, F, SQ. cbn [concat]. rewrite firstn_nil, app_nil_r. reflexivity.
  - (* a write failed: its bytes are not among those reported, so it had none *)
    assert (LEN : length (concat (begun (cur t1))) <= length (concat (sent (cur t1)))).
    { apply (f_equal (fun x => length (concat x))) in OR. rewrite !concat_app, !app_length in OR. lia. }
    rewrite W2, !concat_app, W5, W3, !app_length in LEN. assert (part = []) by (destruct part; [reflexivity|cbn [length] in LEN; lia]). subst part. rewrite W4, app_nil_r, <- W5, SQ. reflexivity.
Qed.
Example C128_example : exists s1 t1 s2 t2, wrun ex_cfg (w_init 1) (conn ++ send_now 0 m1 ++ send_wait 0 m2 4 ++ [WTake 1; WTake 1; WDone] ++ handler_ok 4 ++ [WTake 1; WDone] ++ handler_ok 6) = Some (s1, t1) /\
  wrun ex_cfg s1 (WGraceful :: send_wait 0 m3 3) = Some (s2, t2) /\
  sent (cur t1) = [m1; m2] /\ queued (labels t1) = [m1; m2] /\ no_prior (labels t1) /\ wire (cur (t1 ++ t2)) = m1 ++ m2 /\ sb (w_s s2) = [m3].
Proof. do 4 eexists. split; [vm_compute; reflexivity|]. split; [vm_compute; reflexivity|]. repeat match goal with |- _ /\ _ => split end; vm_compute; (reflexivity || exact I). Qed.
(** In every execution, when everything has come to rest: each message handed over, in order, was reported as sent or as failed, or
    still waits in the send buffer. *)
Theorem C128_accounted c n l s tr : wrun c (w_init n) l = Some (s, tr) -> no_prior (labels tr) -> idle (w_s s) ->
  concat (finished (labels tr)) ++ sb (w_s s) = queued (labels tr).
Proof.
  intros H NP (_ & ES & _ & EW). pose proof (k_inv _ _ (K_all _ _ _ _ _ H)) as IV. pose proof (L_Send.i_order _ _ IV NP) as OR. pose proof (L_Send.i_writes _ _ IV) as W.
  unfold L_Send.mid in OR. rewrite ES in OR. rewrite EW, app_nil_r in W. rewrite <- W.
  assert (HS : forall t, handed t = concat (started t)) by (induction t as [|[] t IH]; cbn [handed started concat]; rewrite ?IH; reflexivity). rewrite <- HS. exact OR.
Qed.
Print Assumptions C128_refuted.
Print Assumptions C128_reported_partial.
Print Assumptions C128_accounted.
Print Assumptions C128_waiting_refuted.
Print Assumptions C128_statement_refuted.
Print Assumptions C129_statement_refuted.
