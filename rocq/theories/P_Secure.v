(** C107-C110: TLS and web socket links *)
From Coq Require Import List Bool Arith Lia.
From Verif Require Import M_Secure S_Secure.
Import ListNotations.

Ltac pj := cbn [q_status q_started q_closing q_need q_conn q_hs q_read q_resume q_mon q_sd q_posts q_up set_status set_need set_conn set_hs set_read set_mon set_sd set_posts set_up set_run
  add_post is_connected is_broken negb andb orb c_layer c_client c_passive] in *.
Ltac cases D := unfold step, request, tcp_force, do_force, close, start, read, is_connected, is_broken, add_post in D; pj; cbn iota in D; try discriminate D;
  repeat match type of D with
  | context [match ?x with _ => _ end] => lazymatch x with context [match _ with _ => _ end] => fail | _ => idtac end; first [ is_var x; destruct x | let E := fresh "E" in destruct x eqn:E ]; try discriminate D; pj; cbn iota in D
  end; try (injection D as <- <-); pj.

Lemma run_app : forall c l1 l2 s, run c s (l1 ++ l2) = match run c s l1 with Some (s1, t1) => match run c s1 l2 with Some (s2, t2) => Some (s2, t1 ++ t2) | None => None end | None => None end.
Proof.
  induction l1 as [|a l1 IH]; intros l2 s; cbn.
  - destruct (run c s l2) as [[s2 t2]|]; reflexivity.
  - destruct (step c s a) as [[s1 e1]|]; [|reflexivity]. rewrite IH. destruct (run c s1 l1) as [[s2 t2]|]; [|reflexivity].
    destruct (run c s2 l2) as [[s3 t3]|]; [|reflexivity]. rewrite app_assoc. reflexivity.
Qed.

(** ** C107: handshake first *)
Definition on (s : qst) : bool := xorb (q_started s) (q_closing s).
Definition J107 (s : qst) (p : phase) : Prop :=
  match p with
  | Off => q_started s = false /\ q_closing s = false /\ q_conn s = false /\ q_hs s = HNone /\ q_read s = false /\ q_resume s = false /\ q_status s = BROKEN
  | Begun => on s = true /\ (q_conn s = true -> q_hs s = HNone) /\ q_read s = false /\ q_resume s = false /\ q_status s <> CONNECTED /\ q_status s <> GRACEFUL
  | Shaken => False
  | Up => on s = true /\ q_conn s = false /\ q_hs s = HNone
  | Failed => on s = true /\ q_conn s = false /\ q_hs s = HNone /\ q_read s = false /\ q_resume s = false /\ q_status s <> CONNECTED /\ q_status s <> GRACEFUL
  end.
Lemma J107_step : forall c s a s' e p, J107 s p -> step c s a = Some (s', e) -> exists p', fold_left see e (Some p) = Some p' /\ J107 s' p'.
Proof.
  intros c s a s' e p J D. destruct s as [st sta cl nd cn h rd rs mn sd po up].
  destruct c as [ly cc pa].
  destruct p; cbn [J107] in J; unfold on in J; pj; try contradiction.
  - destruct J as (-> & -> & -> & -> & -> & -> & ->).
    destruct a; cases D; eexists; (split; [reflexivity|]); cbn; unfold on; pj; repeat split; auto; discriminate.
  - destruct J as (O & K & -> & -> & N & G). destruct sta, cl; try discriminate O; clear O;
    (destruct a; cases D; try congruence; eexists; (split; [reflexivity|]); cbn; unfold on; pj; subst; repeat split; auto; try discriminate; try congruence).
    all: try (destruct cn; [discriminate (K eq_refl) | first [reflexivity | discriminate]]).
    all: try (unfold calls in E; pj; destruct cn, h; cbn in E; try discriminate E; auto).
  - destruct J as (O & -> & ->). destruct sta, cl; try discriminate O; clear O;
    (destruct a; cases D; try congruence; eexists; (split; [reflexivity|]); cbn; unfold on; pj; subst; repeat split; auto; try discriminate; try congruence).
    all: try (unfold calls in E; pj; destruct rd; cbn in E; try discriminate E; reflexivity).
  - destruct J as (O & -> & -> & -> & -> & N & G). destruct sta, cl; try discriminate O; clear O;
    (destruct a; cases D; try congruence; eexists; (split; [reflexivity|]); cbn; unfold on; pj; subst; repeat split; auto; try discriminate; try congruence).
Qed.

Lemma J107_run : forall c l s s' t p, J107 s p -> run c s l = Some (s', t) -> exists p', fold_left see t (Some p) = Some p' /\ J107 s' p'.
Proof.
  induction l as [|a l IH]; intros s s' t p J R; cbn in R; [injection R as <- <-; exists p; split; [reflexivity | exact J]|].
  destruct (step c s a) as [[s1 e1]|] eqn:D; [|discriminate]. destruct (run c s1 l) as [[s2 e2]|] eqn:R2; [|discriminate].
  injection R as <- <-. destruct (J107_step c s a s1 e1 p J D) as (p1 & F1 & J1). destruct (IH _ _ _ _ J1 R2) as (p2 & F2 & J2).
  exists p2. rewrite fold_left_app, F1. split; assumption.
Qed.
Lemma J107_0 : forall n, J107 (q0 n) Off.
Proof. intro n. cbn. repeat split. Qed.

Theorem C107 : forall c n l s t, run c (q0 n) l = Some (s, t) -> watch t <> None /\ (q_status s = CONNECTED -> watch t = Some Up).
Proof.
  intros c n l s t R. destruct (J107_run c l (q0 n) s t Off (J107_0 n) R) as (p & F & J). unfold watch. rewrite F. split; [discriminate|].
  intro Y. destruct p; cbn in J; try contradiction; try reflexivity; exfalso.
  - destruct J as (_ & _ & _ & _ & _ & _ & K). congruence.
  - destruct J as (_ & _ & _ & _ & K & _). congruence.
  - destruct J as (_ & _ & _ & _ & _ & K & _). congruence.
Qed.
Print Assumptions C107.
(** a client that is closed and connects again *)
Definition ex_life : list act := [QStart; QConn true; QHand true; QHandled; QPeer; QErr; QOnClose; QConn false; QConn true; QHand true; QHandled].
Example C107_ex : exists s t, run (mk_cfg TLS true false) (q0 true) ex_life = Some (s, t) /\ q_status s = CONNECTED /\
  t = [EStart; EHandshake true; EConnect; ERead; EShut; EClose true; EStart; EHandshake true; EConnect; ERead].
Proof. do 2 eexists. split; [vm_compute; reflexivity|]. split; reflexivity. Qed.

(** ** C108: a shutdown ends *)
Definition C108_statement : Prop := forall c n l s t, run c (q0 n) l = Some (s, t) -> q_status s = GRACEFUL \/ q_status s = FORCE -> comes c s is_close.

(** a web socket server, passive receiving, nobody has asked for a read: force_shutdown (which is graceful_shutdown here) is completed by the peer *)
Definition stuck_ws : list act := [QStart; QHand true; QHandled; QFill; QReq false; QRun; QSdDone].
Theorem C108_refuted : exists s t, run (mk_cfg WS false true) (q0 false) stuck_ws = Some (s, t) /\ q_status s = GRACEFUL /\ q_started s = true /\
  (forall a, lib (mk_cfg WS false true) s a = true -> step (mk_cfg WS false true) s a = None) /\ step (mk_cfg WS false true) s QAsk = Some (s, []).
Proof.
  do 2 eexists. split; [vm_compute; reflexivity|]. split; [reflexivity|]. split; [reflexivity|]. split; [|reflexivity].
  intros a L. destruct a as [| | | |[|]| | | | | | | | | | |]; try discriminate L; reflexivity.
Qed.
Print Assumptions C108_refuted.
Theorem C108_statement_refuted : ~ C108_statement.
Proof.
  intro C. destruct C108_refuted as (s & t & R & G & _ & H & _). destruct (C _ _ _ _ _ R (or_introl G)) as ([|a k] & s' & t' & A & R' & X).
  - injection R' as <- <-. discriminate.
  - cbn in A. destruct A as [A _]. cbn in R'. rewrite (H a A) in R'. discriminate.
Qed.
Print Assumptions C108_statement_refuted.

Definition w_post (p : post) : nat := match p with OShutdown => 3 | OForce => 1 end.
Fixpoint w_posts (l : list post) : nat := match l with [] => 0 | p :: l' => w_post p + w_posts l' end.
Definition mu (s : qst) : nat :=
  (if q_conn s then 2 else 0) + match q_hs s with HNone => 0 | HWait => 5 | HDone _ => 4 end + (if q_read s then 1 else 0) + (if q_sd s then 1 else 0) + w_posts (q_posts s).
Lemma w_posts_app : forall a b, w_posts (a ++ b) = w_posts a + w_posts b.
Proof. induction a as [|p a IH]; intro b; cbn; [reflexivity | rewrite IH; lia]. Qed.
Lemma comes_step : forall c s a s1 e1 f, lib c s a = true -> step c s a = Some (s1, e1) -> comes c s1 f -> comes c s f.
Proof.
  intros c s a s1 e1 f L D (k & s' & t' & A & R & X). exists (a :: k), s', (e1 ++ t'). cbn. rewrite L, D, R. repeat split; auto.
  rewrite existsb_app, X. apply orb_true_r.
Qed.
Lemma closes : forall n c s, q_closing s = true -> q_started s = false -> q_up s = false -> mu s <= n -> comes c s is_close.
Proof.
  induction n as [n IH] using lt_wf_ind. intros c s C S U M.
  assert (G : forall a s1 e1, lib c s a = true -> step c s a = Some (s1, e1) -> q_closing s1 = true -> q_started s1 = false -> q_up s1 = false -> mu s1 < mu s -> comes c s is_close).
  { intros a s1 e1 L D C1 S1 U1 M1. refine (comes_step c s a s1 e1 is_close L D _). apply (IH (mu s1)); auto; lia. }
  destruct s as [st sta cl nd cn h rd rs mn sd po up]; pj. subst cl sta up. unfold mu in G; pj.
  destruct cn.
  { refine (G (QConn false) _ _ _ _ _ _ _ _); [reflexivity | cbn; rewrite andb_false_r; reflexivity | reflexivity | reflexivity | reflexivity |]. pj. rewrite w_posts_app. cbn. lia. }
  destruct h as [| |ok].
  2: { refine (G QHandEnd _ _ _ _ _ _ _ _); [reflexivity | reflexivity | reflexivity | reflexivity | reflexivity |]. pj. lia. }
  2: { destruct ok.
    - destruct rd; (refine (G QHandled _ _ _ _ _ _ _ _); [reflexivity | reflexivity | reflexivity | reflexivity | reflexivity |]; pj; lia).
    - destruct (step c (mk_q st false true nd false (HDone false) rd rs mn sd po false) QHandled) as [[s1 e1]|] eqn:D.
      + apply (G QHandled s1 e1 eq_refl D); cases D; auto; cbn; rewrite ?w_posts_app; cbn; lia.
      + exfalso. cases D. }
  destruct po as [|[|] po].
  2: { destruct (step c (mk_q st false true nd false HNone rd rs mn sd (OForce :: po) false) QRun) as [[s1 e1]|] eqn:D.
      - apply (G QRun s1 e1 eq_refl D); cases D; auto; cbn; lia.
      - exfalso. cases D. }
  2: { refine (G QRun _ _ _ _ _ _ _ _); [reflexivity | reflexivity | reflexivity | reflexivity | reflexivity |]. pj. cbn. destruct sd; lia. }
  destruct sd.
  { destruct c as [[|] cc pa]; (refine (G QSdDone _ _ _ _ _ _ _ _); [reflexivity | reflexivity | reflexivity | reflexivity | reflexivity |]; pj; lia). }
  destruct rd.
  { destruct (step c (mk_q st false true nd false HNone true rs mn false [] false) QErr) as [[s1 e1]|] eqn:D.
    - apply (G QErr s1 e1 eq_refl D); cases D; auto; cbn; lia.
    - exfalso. cases D. }
  clear. exists [QOnClose]. destruct c as [ly [|] pa], nd; do 2 eexists; (split; [cbn; auto|]; split; [cbn; reflexivity | reflexivity]).
Qed.

Record I108 (c : cfg) (s : qst) : Prop := mk_I108 {
  g_ph : exists p, J107 s p;
  g_up : q_closing s = true -> q_up s = false;
  g_force : q_status s = FORCE -> q_closing s = true;
  g_grace : q_status s = GRACEFUL -> q_started s = true -> q_mon s = true \/ q_posts s <> [] \/ (c_layer c = WS /\ q_up s = false);
  g_read : q_status s = CONNECTED \/ q_status s = GRACEFUL -> q_started s = true -> c_passive c = false -> q_read s = true \/ q_resume s = true }.
Lemma J107_facts : forall s p, J107 s p -> (q_started s = false -> q_closing s = false -> q_status s = BROKEN) /\ (q_started s = true -> q_closing s = true -> False).
Proof.
  intros s p J. destruct p; cbn in J; unfold on in J; try contradiction; (split; intros A B; rewrite A, B in J; destruct J as (J1 & J2 & J3); cbn in *; try discriminate; tauto).
Qed.
Lemma I108_step : forall c s a s' e, I108 c s -> step c s a = Some (s', e) -> I108 c s'.
Proof.
  intros c s a s' e [[p J] A B C Rd] D. destruct (J107_step c s a s' e p J D) as (p' & _ & J').
  constructor; [exists p'; exact J' | | | |]; clear J' p'; destruct (J107_facts s p J) as [X1 X2]; clear J p;
  destruct s as [st sta cl nd cn h rd rs mn sd po up]; destruct c as [ly cc pa]; pj.
  - destruct sta, cl; try (elim (X2 eq_refl eq_refl)); clear X2; destruct a; cases D; auto; intros; try discriminate; auto.
  - destruct sta, cl; try (elim (X2 eq_refl eq_refl)); clear X2; try specialize (X1 eq_refl eq_refl); try subst st; destruct a; cases D; auto; intros; try discriminate; auto.
  - destruct sta, cl; try (elim (X2 eq_refl eq_refl)); clear X2; try specialize (X1 eq_refl eq_refl); try subst st; destruct a; cases D; auto; intros K T; try discriminate; auto; try congruence.
    all: try (right; left; destruct po; discriminate).
    all: try (destruct (C K T) as [X|[X|X]]; auto; try discriminate; try congruence; try tauto).
    all: try match goal with H : _ && false = true |- _ => rewrite ?andb_false_r in H; discriminate H end.
  - destruct sta, cl; try (elim (X2 eq_refl eq_refl)); clear X2; try specialize (X1 eq_refl eq_refl); try subst st; destruct a; cases D; auto; intros K T V; try discriminate T; try discriminate V; auto; try (destruct K as [K|K]; discriminate K).
    all: try (subst; right; reflexivity).
    all: try match goal with H : _ && false = true |- _ => rewrite ?andb_false_r in H; discriminate H end.
Qed.
Lemma I108_run : forall c l s s' t, I108 c s -> run c s l = Some (s', t) -> I108 c s'.
Proof.
  induction l as [|a l IH]; intros s s' t J R; cbn in R; [injection R as <- <-; exact J|].
  destruct (step c s a) as [[s1 e1]|] eqn:D; [|discriminate]. destruct (run c s1 l) as [[s2 e2]|] eqn:R2; [|discriminate].
  injection R as <- <-. exact (IH _ _ _ (I108_step c s a s1 e1 J D) R2).
Qed.
Lemma I108_0 : forall c n, I108 c (q0 n).
Proof. intros c n. constructor; cbn; try discriminate. exists Off. apply J107_0. Qed.

Lemma drains : forall c po st nd cn h rd rs mn sd up, st <> BROKEN -> st <> FORCE -> In OForce po -> comes c (mk_q st true false nd cn h rd rs mn sd po up) is_close.
Proof.
  induction po as [|p po IH]; intros st nd cn h rd rs mn sd up N F I; [destruct I|].
  destruct p.
  - refine (comes_step c _ QRun (mk_q FORCE false true nd cn h rd false false sd po false) [EShut] is_close eq_refl _ _).
    + destruct st; try congruence; reflexivity.
    + eapply closes; [reflexivity | reflexivity | reflexivity | apply le_n].
  - destruct I as [I|I]; [discriminate|].
    apply comes_step with (a := QRun) (s1 := (mk_q st true false nd cn h rd rs true true po up)) (e1 := []); [reflexivity | reflexivity |]. apply IH; assumption.
Qed.
Lemma monitored : forall c po nd cn h rd rs sd up, comes c (mk_q GRACEFUL true false nd cn h rd rs true sd po up) is_close.
Proof.
  intros c po nd cn h rd rs sd up. destruct c as [ly cc pa].
  refine (comes_step _ _ QMon (mk_q GRACEFUL true false nd cn h rd rs false sd (po ++ [OForce]) up) [EForced] is_close eq_refl _ _).
  - cbn. unfold tcp_force. cbn. destruct cc, nd; reflexivity.
  - apply drains; [discriminate | discriminate |]. apply in_or_app. right. left. reflexivity.
Qed.

(** shutdowns come to an end, unless a web socket without reading on its own and without a read in progress is shut down *)
Theorem C108_partial : forall c n l s t, run c (q0 n) l = Some (s, t) -> q_status s = GRACEFUL \/ q_status s = FORCE ->
  c_layer c = TLS \/ c_passive c = false \/ q_read s = true -> comes c s is_close.
Proof.
  intros c n l s t R G H. destruct (I108_run c l _ _ _ (I108_0 c n) R) as [[p J] A B C Rd].
  destruct (J107_facts s p J) as [X1 X2]. clear J p R.
  destruct (q_closing s) eqn:Cl.
  { destruct (q_started s) eqn:Sta; [elim (X2 eq_refl eq_refl)|]. eapply closes; auto. }
  destruct G as [G|G]; [|specialize (B G); discriminate].
  destruct (q_started s) eqn:Sta; [|specialize (X1 eq_refl eq_refl); congruence].
  specialize (C G eq_refl). specialize (Rd (or_intror G) eq_refl). clear A B X1 X2.
  destruct s as [st sta cl nd cn h rd rs mn sd po up]; pj. subst.
  destruct mn; [apply monitored|].
  destruct po as [|[|] po].
  - destruct C as [C|[C|[L U]]]; [discriminate | congruence |]. destruct c as [ly cc pa]; pj. subst.
    assert (K : forall rs', comes (mk_cfg WS cc pa) (mk_q GRACEFUL true false nd cn h true rs' false sd [] false) is_close).
    { intro rs'. refine (comes_step _ _ QErr (mk_q FORCE false true nd cn h false false false sd [] false) [EShut] is_close eq_refl _ _).
      - cbn. rewrite ?andb_false_r. reflexivity.
      - eapply closes; [reflexivity | reflexivity | reflexivity | apply le_n]. }
    assert (O : rd = true \/ rs = true) by (destruct H as [H|[H|H]]; [discriminate | auto | auto]).
    destruct rd; [apply K|]. destruct O as [O|O]; [discriminate|subst].
    apply comes_step with (a := QResume) (s1 := (mk_q GRACEFUL true false nd cn h true false false sd [] false)) (e1 := [ERead]); [reflexivity | reflexivity |]. apply K.
  - apply drains; [discriminate | discriminate | left; reflexivity].
  - apply comes_step with (a := QRun) (s1 := (mk_q GRACEFUL true false nd cn h rd rs true true po up)) (e1 := []); [reflexivity | reflexivity |]. apply monitored.
Qed.
Print Assumptions C108_partial.
(** the peer never answers *)
Example C108_ex : exists s t, run (mk_cfg TLS true false) (q0 true) [QStart; QConn true; QHand true; QHandled; QReq true; QRun] = Some (s, t) /\ q_status s = GRACEFUL /\ q_up s = true /\
  run (mk_cfg TLS true false) s [QMon; QRun; QErr; QSdDone; QOnClose] <> None.
Proof. do 2 eexists. split; [vm_compute; reflexivity|]. split; [reflexivity|]. split; [reflexivity|]. vm_compute. discriminate. Qed.
(** with passive receiving it helps to have called recv_msg before shutting down *)
Example C108_passive : exists s t, run (mk_cfg WS false true) (q0 false) [QStart; QHand true; QHandled; QFill; QAsk; QReq false; QRun; QSdDone] = Some (s, t) /\ q_status s = GRACEFUL /\ q_read s = true.
Proof. do 2 eexists. split; [vm_compute; reflexivity|]. split; reflexivity. Qed.

(** ** C109: a handshake ends *)
Definition C109_statement : Prop := forall c n l s t, run c (q0 n) l = Some (s, t) -> q_hs s <> HNone -> comes c s is_handshake.
(** a TLS server whose client says nothing after connecting: no timer is running *)
Theorem C109_refuted : exists s t, run (mk_cfg TLS false false) (q0 false) [QStart] = Some (s, t) /\ q_hs s = HWait /\
  (forall a, lib (mk_cfg TLS false false) s a = true -> step (mk_cfg TLS false false) s a = None).
Proof.
  do 2 eexists. split; [vm_compute; reflexivity|]. split; [reflexivity|].
  intros a L. destruct a as [| | | |[|]| | | | | | | | | | |]; try discriminate L; reflexivity.
Qed.
Print Assumptions C109_refuted.
Theorem C109_statement_refuted : ~ C109_statement.
Proof.
  intro C. destruct C109_refuted as (s & t & R & G & H). assert (N : q_hs s <> HNone) by (rewrite G; discriminate). destruct (C _ _ _ _ _ R N) as ([|a k] & s' & t' & A & R' & X).
  - injection R' as <- <-. discriminate.
  - cbn in A. destruct A as [A _]. cbn in R'. rewrite (H a A) in R'. discriminate.
Qed.
Print Assumptions C109_statement_refuted.

(** a handshake ends if it is that of a web socket, if the connection is gone, or if the application then asks for the link to be closed *)
Lemma hands : forall c s, q_hs s <> HNone -> c_layer c = WS \/ q_up s = false -> comes c s is_handshake.
Proof.
  intros c s N H. destruct s as [st sta cl nd cn h rd rs mn sd po up]; pj.
  assert (K : forall ok, comes c (mk_q st sta cl nd cn (HDone ok) rd rs mn sd po up) is_handshake).
  { intro ok. destruct (step c (mk_q st sta cl nd cn (HDone ok) rd rs mn sd po up) QHandled) as [[s1 e1]|] eqn:D.
    - exists [QHandled], s1, (e1 ++ []). split; [split; [reflexivity|]; rewrite D; exact I|]. split; [cbn [run]; rewrite D; reflexivity|].
      rewrite app_nil_r. destruct ok; cases D; reflexivity.
    - exfalso. destruct ok; cases D. }
  destruct h as [| |ok]; [congruence | | apply K].
  refine (comes_step c _ QHandEnd (mk_q st sta cl nd cn (HDone false) rd rs mn sd po up) [] is_handshake eq_refl _ (K false)).
  cbn. destruct H as [H|H]; [rewrite H; destruct up; reflexivity | subst; reflexivity].
Qed.
Theorem C109_partial : forall c n l s t, run c (q0 n) l = Some (s, t) -> q_hs s <> HNone ->
  ((c_layer c = WS \/ q_up s = false) -> comes c s is_handshake) /\
  (forall again s1 e1, step c s (QReq again) = Some (s1, e1) -> comes c s1 is_handshake).
Proof.
  intros c n l s t R N. split; [intro H; apply hands; assumption|].
  intros again s1 e1 D. pose proof (I108_run c l _ _ _ (I108_0 c n) R) as J. destruct (g_ph _ _ J) as [p K].
  destruct (J107_facts s p K) as [X1 X2].
  assert (B : p = Begun) by (destruct p; cbn in K; try contradiction; try tauto). subst p. destruct K as (O & _ & Kr & _ & NC & NG).
  pose proof (g_up _ _ J) as GU. pose proof (g_force _ _ J) as GF. clear J R.
  destruct s as [st sta cl nd cn h rd rs mn sd po up]; pj. subst rd. unfold on in O; pj.
  destruct cl.
  { destruct sta; [discriminate O|]. rewrite (GU eq_refl) in *. clear X1 X2 GU. destruct c as [ly cc pa].
    apply hands; [cases D; congruence | right; cases D; congruence]. }
  destruct sta; [|discriminate O]. clear X1 X2 GU O. assert (NF : st <> FORCE) by (intro K; discriminate (GF K)). clear GF.
  assert (Q : exists nd', s1 = mk_q st true false nd' cn h false rs mn sd (po ++ [OForce]) up).
  { destruct c as [ly cc pa]. cases D; try congruence; try (eexists; reflexivity);
    match goal with H : _ && false = true |- _ => rewrite ?andb_false_r in H; discriminate H end. }
  destruct Q as [nd' ->].
  destruct up; [|apply hands; [exact N | right; reflexivity]]. clear D.
  (* the request is run, then the handshake fails *)
  assert (G : forall po' mn' sd', In OForce po' -> comes c (mk_q st true false nd' cn h false rs mn' sd' po' true) is_handshake).
  { induction po' as [|[|] po' IH]; intros mn' sd' I; [destruct I | |].
    - destruct (step c (mk_q st true false nd' cn h false rs mn' sd' (OForce :: po') true) QRun) as [[s2 e2]|] eqn:D; [|exfalso; cases D].
      destruct (q_up s2) eqn:U2.
      + exfalso. cases D; congruence.
      + refine (comes_step c _ QRun s2 e2 is_handshake eq_refl D _). apply hands; [|right; exact U2]. cases D; congruence.
    - destruct I as [I|I]; [discriminate|].
      apply comes_step with (a := QRun) (s1 := (mk_q st true false nd' cn h false rs true true po' true)) (e1 := []); [reflexivity | reflexivity |]. apply IH. exact I. }
  apply G. apply in_or_app. right. left. reflexivity.
Qed.
Print Assumptions C109_partial.

(** after a failed handshake the link is closed *)
Definition K109 (s : qst) (p : phase) : Prop :=
  match p with
  | Begun => q_hs s <> HNone -> q_started s = true -> q_status s = HANDSHAKING
  | Failed => q_started s = true -> q_status s = HANDSHAKING /\ In OForce (q_posts s)
  | _ => True
  end.
Lemma K109_step : forall c s a s' e p p', J107 s p -> K109 s p -> step c s a = Some (s', e) -> fold_left see e (Some p) = Some p' -> K109 s' p'.
Proof.
  intros c s a s' e p p' J K D F. destruct s as [st sta cl nd cn h rd rs mn sd po up]. destruct c as [ly cc pa].
  destruct p; cbn [J107 K109] in J, K; unfold on in J; pj; try contradiction.
  - destruct J as (-> & -> & -> & -> & -> & -> & ->). destruct a; cases D; cbn in F; injection F as <-; cbn; auto; try discriminate; try congruence.
  - destruct J as (O & N & -> & -> & G1 & G2). destruct sta, cl; try discriminate O; clear O;
    destruct a; cases D; cbn in F; try discriminate F; injection F as <-; cbn; auto; try discriminate; try congruence; intros; try discriminate; auto; try congruence.
    all: try (split; [apply K; congruence | apply in_or_app; right; left; reflexivity]).
    all: try (specialize (K ltac:(congruence) eq_refl); congruence).
    all: try (exfalso; match goal with E : negb (calls _) = true, H : ?x <> HNone |- _ => unfold calls in E; pj; destruct x; [congruence | |]; rewrite ?orb_true_r in E; discriminate E end).
  - destruct J as (O & -> & ->). destruct sta, cl; try discriminate O; clear O;
    destruct a; cases D; cbn in F; try discriminate F; injection F as <-; cbn; auto; try discriminate; try congruence.
  - destruct J as (O & -> & -> & -> & -> & G1 & G2). destruct sta, cl; try discriminate O; clear O;
    destruct a; cases D; cbn in F; try discriminate F; injection F as <-; cbn; auto; try discriminate; try congruence; intros; try discriminate; auto; try congruence.
    all: destruct (K eq_refl) as [K1 K2]; try discriminate K1; subst; try (split; [reflexivity | apply in_or_app; right; left; reflexivity]).
    all: try (split; [reflexivity | destruct K2 as [K2|K2]; [discriminate | exact K2]]).
Qed.
Theorem C109_failed_closes : forall c n l s t, run c (q0 n) l = Some (s, t) -> watch t = Some Failed -> comes c s is_close.
Proof.
  assert (G : forall c l s0 p0 s t p, J107 s0 p0 -> K109 s0 p0 -> run c s0 l = Some (s, t) -> fold_left see t (Some p0) = Some p -> K109 s p).
  { induction l as [|a l IH]; intros s0 p0 s t p J K R F; cbn in R; [injection R as <- <-; cbn in F; injection F as <-; exact K|].
    destruct (step c s0 a) as [[s1 e1]|] eqn:D; [|discriminate]. destruct (run c s1 l) as [[s2 e2]|] eqn:R2; [|discriminate].
    injection R as <- <-. destruct (J107_step c s0 a s1 e1 p0 J D) as (p1 & F1 & J1). rewrite fold_left_app, F1 in F.
    exact (IH _ _ _ _ _ J1 (K109_step c s0 a s1 e1 p0 p1 J K D F1) R2 F). }
  intros c n l s t R W. pose proof (G c l (q0 n) Off s t Failed (J107_0 n) I R W) as K.
  destruct (J107_run c l (q0 n) s t Off (J107_0 n) R) as (p & F & J). unfold watch in W. rewrite F in W. injection W as ->.
  pose proof (g_up _ _ (I108_run c l _ _ _ (I108_0 c n) R)) as U. cbn in J, K. destruct J as (O & _). unfold on in O.
  destruct (q_started s) eqn:S.
  - destruct (K eq_refl) as [H P]. destruct (q_closing s) eqn:C; [discriminate|]. destruct s as [st sta cl nd cn h rd rs mn sd po up]; pj. subst. apply drains; [discriminate | discriminate | exact P].
  - destruct (q_closing s) eqn:C; [|discriminate]. eapply closes; auto.
Qed.
Print Assumptions C109_failed_closes.
Example C109_failed_ex : exists s t, run (mk_cfg TLS false false) (q0 false) [QStart; QHand false; QHandled] = Some (s, t) /\ watch t = Some Failed /\ q_started s = true.
Proof. do 2 eexists. split; [vm_compute; reflexivity|]. split; reflexivity. Qed.
(** the application of a TLS client gives up on the handshake *)
Example C109_ex : exists s t s1 e1, run (mk_cfg TLS true false) (q0 true) [QStart; QConn true] = Some (s, t) /\ q_hs s = HWait /\
  step (mk_cfg TLS true false) s (QReq false) = Some (s1, e1) /\ run (mk_cfg TLS true false) s1 [QHandEnd] = None /\
  run (mk_cfg TLS true false) s1 [QRun; QHandEnd; QHandled] <> None.
Proof. do 4 eexists. split; [vm_compute; reflexivity|]. split; [reflexivity|]. split; [vm_compute; reflexivity|]. split; [reflexivity | vm_compute; discriminate]. Qed.

(** ** C110: reconnecting is up to the application *)
Definition C110_statement : Prop := forall c n l s t, c_client c = true -> run c (q0 n) l = Some (s, t) -> obeyed n t = true.
(** the handshake fails once: the library itself gives up reconnecting, which is switched on *)
Theorem C110_refuted : exists s t, run (mk_cfg TLS true false) (q0 true) [QStart; QConn true; QHand false; QHandled; QRun; QOnClose] = Some (s, t) /\
  t = [EStart; EHandshake false; EShut; EClose false] /\ obeyed true t = false.
Proof. do 2 eexists. split; [vm_compute; reflexivity|]. split; reflexivity. Qed.
Print Assumptions C110_refuted.
Theorem C110_statement_refuted : ~ C110_statement.
Proof. intro C. destruct C110_refuted as (s & t & R & _ & X). rewrite (C (mk_cfg TLS true false) true _ s t eq_refl R) in X. discriminate. Qed.
Print Assumptions C110_statement_refuted.

Definition shaken (t : list ev) : bool := forallb (fun e => match e with EHandshake false => false | _ => true end) t.
Lemma obeyed_app : forall t1 t2 w, obeyed w (t1 ++ t2) = obeyed w t1 && obeyed (wish w t1) t2.
Proof. induction t1 as [|[] t1 IH]; intros t2 w; cbn; rewrite ?IH; try reflexivity. rewrite andb_assoc. reflexivity. Qed.
Lemma wish_app : forall t1 t2 w, wish w (t1 ++ t2) = wish (wish w t1) t2.
Proof. induction t1 as [|[] t1 IH]; intros t2 w; cbn; rewrite ?IH; reflexivity. Qed.
Lemma C110_step : forall c s a s' e, c_client c = true -> step c s a = Some (s', e) -> shaken e = true -> obeyed (q_need s) e = true /\ q_need s' = wish (q_need s) e.
Proof.
  intros c s a s' e Y D H. destruct s as [st sta cl nd cn h rd rs mn sd po up]. destruct c as [ly cc pa]; pj. subst cc.
  destruct a; cases D; cbn in *; auto; try discriminate; split; auto; try (destruct nd; auto; discriminate).
Qed.
Theorem C110_partial : forall c n l s t, c_client c = true -> run c (q0 n) l = Some (s, t) -> shaken t = true -> obeyed n t = true.
Proof.
  intros c n l s t Y R H. change n with (q_need (q0 n)). revert R H. generalize (q0 n) as s0. revert s t.
  induction l as [|a l IH]; intros s t s0 R H; cbn in R; [injection R as <- <-; reflexivity|].
  destruct (step c s0 a) as [[s1 e1]|] eqn:D; [|discriminate]. destruct (run c s1 l) as [[s2 e2]|] eqn:R2; [|discriminate].
  injection R as <- <-. unfold shaken in H. rewrite forallb_app in H. apply andb_prop in H. destruct H as [H1 H2].
  destruct (C110_step c s0 a s1 e1 Y D H1) as [O W]. rewrite obeyed_app, O, <- W. cbn. exact (IH _ _ _ R2 H2).
Qed.
Print Assumptions C110_partial.
Example C110_ex : exists s t, run (mk_cfg TLS true false) (q0 true) [QStart; QConn true; QHand true; QHandled; QPeer; QErr; QOnClose; QConn true; QHand true; QHandled; QReq false; QRun; QMon; QRun; QErr; QSdDone; QOnClose] = Some (s, t) /\
  shaken t = true /\ existsb is_close t = true /\ existsb (fun e => match e with EClose true => true | _ => false end) t = true /\
  existsb (fun e => match e with EClose false => true | _ => false end) t = true.
Proof. do 2 eexists. split; [vm_compute; reflexivity|]. repeat split. Qed.

(** a client whose link has been closed and which is not connecting again connects when the application asks for it by
    disconnect(true), force_shutdown(true) or graceful_shutdown(true) *)
Theorem C110_reopens : forall c n l s t, c_client c = true -> run c (q0 n) l = Some (s, t) -> watch t = Some Off ->
  exists s1, step c s (QReq true) = Some (s1, [EWish true; EStart]) /\ (exists s2, step c s1 (QConn true) = Some (s2, [])).
Proof.
  intros c n l s t Y R W. destruct (J107_run c l (q0 n) s t Off (J107_0 n) R) as (p & F & J). unfold watch in W. rewrite F in W. injection W as ->.
  destruct J as (A & B & _ & _ & _ & _ & C). destruct s as [st sta cl nd cn h rd rs mn sd po up]. destruct c as [ly cc pa]. pj. subst.
  eexists. split; [reflexivity|]. eexists. reflexivity.
Qed.
Print Assumptions C110_reopens.
Example C110_reopens_ex : exists s t, run (mk_cfg TLS true false) (q0 false) [QStart; QConn true; QHand true; QHandled; QPeer; QErr; QOnClose] = Some (s, t) /\
  watch t = Some Off /\ last t EStart = EClose false.
Proof. do 2 eexists. split; [vm_compute; reflexivity|]. split; reflexivity. Qed.
