(** C111-C116: reliable UDP sockets *)
From Coq Require Import List NArith Bool Lia ZifyBool ZifyN.
From Verif Require Import M_Kcp S_Kcp.
Import ListNotations.
Open Scope N_scope.

Ltac pj := cbn [k_started k_closing k_conn k_kcp k_timer k_busy k_dead negb andb orb] in *.
Ltac cases D := unfold step in D; pj; cbn iota in D; try discriminate D;
  repeat match type of D with
  | context [match ?x with _ => _ end] => lazymatch x with context [match _ with _ => _ end] => fail | _ => idtac end; first [ is_var x; destruct x | let E := fresh "E" in destruct x eqn:E ]; try discriminate D; pj; cbn iota in D
  end; try (injection D as <- <-); pj.

Lemma run_inv : forall (c : cfg) (P : kst -> Prop) (Q : act -> bool), (forall s a s' e, P s -> Q a = true -> step c s a = Some (s', e) -> P s') ->
  forall l s s' t, P s -> forallb Q l = true -> run c s l = Some (s', t) -> P s'.
Proof.
  intros c P Q St. induction l as [|a l IH]; intros s s' t J F R; cbn in R, F; [injection R as <- <-; exact J|].
  apply andb_prop in F. destruct F as [F1 F2].
  destruct (step c s a) as [[s1 e1]|] eqn:D; [|discriminate]. destruct (run c s1 l) as [[s2 e2]|] eqn:R2; [|discriminate].
  injection R as <- <-. exact (IH _ _ _ (St _ _ _ _ J F1 D) F2 R2).
Qed.
Lemma sel_app : forall f a b, sel f (a ++ b) = sel f a ++ sel f b.
Proof. intros. unfold sel. apply flat_map_app. Qed.

(** ** C111: every message that KCP has completed is given to the application, at once and in order *)
Definition C111_statement : Prop := forall c l s t, run c k0 l = Some (s, t) -> given t = completed t /\ k_dead s = false.

Definition c_rel : cfg := mk_cfg 4000 174000 true false.
Definition big : msg := repeat 7 4001%nat.
Definition l_big : list act := [KCreate; KStart true true; KData [1] [[1; 2]]; KData [2] [big]].
(** a message of 4001 bytes (made by direct_send_msg or by a peer with a larger ST_ASIO_MSG_BUFFER_SIZE) stays in KCP, and with it all later ones *)
Lemma drain_big : forall c q, c_buf c < len big -> drain c (big :: q) = (big :: q, [], false).
Proof. intros c q H. cbn [drain]. apply N.ltb_lt in H. rewrite H. reflexivity. Qed.
Lemma stuck_step : forall a s s' e, k_started s = true -> k_closing s = false -> k_conn s = true -> (exists q, k_kcp s = Some (big :: q)) -> step c_rel s a = Some (s', e) ->
  given e = [] /\ (k_started s' = true -> k_closing s' = false /\ k_conn s' = true /\ exists q, k_kcp s' = Some (big :: q)) /\ (k_started s' = false -> a = KClose).
Proof.
  intros a s s' e S L C [q K] D. destruct s as [st cl cn kq tm bu de]; pj. subst st cl cn kq.
  destruct a; cases D; try (split; [reflexivity|]; split; [intro Z; try discriminate Z; (split; [reflexivity|]; split; [reflexivity | eexists; reflexivity]) | intros; try discriminate; reflexivity]).
  - rewrite <- app_comm_cons, drain_big in * by reflexivity. match goal with H : (_, _, _) = _ |- _ => injection H as <- <- <- end.
    split; [|split; [intro Z; try discriminate Z; (split; [reflexivity|]; split; [reflexivity | eexists; reflexivity]) | intros; discriminate]].
    unfold given. rewrite sel_app, app_nil_r. clear. match goal with |- sel _ (map EDone ?l) = [] => induction l as [|x l IH]; [reflexivity | exact IH] end.
Qed.
Theorem C111_refuted : exists s t, run c_rel k0 l_big = Some (s, t) /\ completed t = [[1; 2]; big] /\ given t = [[1; 2]] /\
  (forall l s' t', run c_rel s l = Some (s', t') -> (forall n, nth_error l n <> Some KClose) -> given t' = []).
Proof.
  do 2 eexists. split; [vm_compute; reflexivity|]. split; [vm_compute; reflexivity|]. split; [vm_compute; reflexivity|].
  intros l s' t' R N.
  match type of R with run _ ?s0 _ = _ => assert (P1 : k_started s0 = true) by reflexivity; assert (PL : k_closing s0 = false) by reflexivity; assert (P2 : k_conn s0 = true) by reflexivity;
    assert (P3 : exists q, k_kcp s0 = Some (big :: q)) by (exists []; vm_compute; reflexivity); revert P1 PL P2 P3 R; generalize s0 end.
  revert s' t' N. induction l as [|a l IH]; intros s' t' N s P1 PL P2 P3 R; cbn in R; [injection R as <- <-; reflexivity|].
  destruct (step c_rel s a) as [[s1 e1]|] eqn:D; [|discriminate]. destruct (run c_rel s1 l) as [[s2 e2]|] eqn:R2; [|discriminate].
  injection R as <- <-. destruct (stuck_step a s s1 e1 P1 PL P2 P3 D) as (G & H1 & H2).
  unfold given. rewrite sel_app. unfold given in G. rewrite G. cbn.
  destruct (k_started s1) eqn:S1; [|elim (N 0%nat); cbn; rewrite (H2 eq_refl); reflexivity].
  destruct (H1 eq_refl) as (QL & Q2 & Q3). refine (IH _ _ _ s1 S1 QL Q2 Q3 R2). intros n. exact (N (S n)).
Qed.
Print Assumptions C111_refuted.
(** with assertions compiled in, an empty message of the peer ends the program *)
Theorem C111_abort_refuted : exists s t, run (mk_cfg 4000 174000 true true) k0 [KCreate; KStart true true; KData [1] [[]]] = Some (s, t) /\ k_dead s = true.
Proof. do 2 eexists. split; [vm_compute; reflexivity | reflexivity]. Qed.
Print Assumptions C111_abort_refuted.
Theorem C111_statement_refuted : ~ C111_statement.
Proof. intro C. destruct C111_refuted as (s & t & R & A & B & _). destruct (C _ _ _ _ R) as [X _]. rewrite A, B in X. discriminate. Qed.
Print Assumptions C111_statement_refuted.

Lemma drain_fits : forall c q, Forall (fits c) q -> drain c q = ([], map EGive q, false).
Proof.
  induction q as [|m q IH]; intro F; [reflexivity|]. apply Forall_cons_iff in F. destruct F as [[F1 F2] F]. cbn [drain map].
  apply N.ltb_ge in F2. rewrite F2. replace (c_debug c && (len m =? 0)) with false; [rewrite (IH F); reflexivity|].
  destruct F1 as [-> | F1]; [reflexivity|]. symmetry. apply andb_false_iff. right. apply N.eqb_neq. lia.
Qed.
Lemma sel_done : forall l, completed (map EDone l) = l /\ given (map EDone l) = [] /\ given (map EGive l) = l /\ completed (map EGive l) = [].
Proof. induction l as [|m l (A & B & C & D)]; [repeat split|]. unfold completed, given, sel in *. cbn [map flat_map app]. rewrite A, B, C, D. repeat split. Qed.
Lemma C111_step : forall c s a s' e, (k_kcp s = None \/ k_kcp s = Some []) /\ k_dead s = false -> step c s a = Some (s', e) -> Forall (fits c) (completed e) ->
  given e = completed e /\ (k_kcp s' = None \/ k_kcp s' = Some []) /\ k_dead s' = false.
Proof.
  intros c s a s' e [K X] D F. destruct s as [st cl cn kq tm bu de]; pj. subst de. destruct K as [-> | ->];
  destruct a; try (cases D; (split; [reflexivity|]; split; [auto | reflexivity])).
  all: try (cases D; try destruct (_ <=? _); (split; [reflexivity|]; split; [auto | reflexivity])).
  unfold step in D; pj. cbn [app] in D. destruct (negb st || bu); [discriminate|]. destruct cn; [|injection D as <- <-; split; [reflexivity|]; split; [auto | reflexivity]].
  destruct (sel_done l) as (A1 & A2 & A3 & A4).
  assert (FL : Forall (fits c) l).
  { destruct (drain c l) as [[r e'] x]. injection D as <- <-. unfold completed in F. rewrite sel_app in F. apply Forall_app in F. destruct F as [F _]. unfold completed in A1. rewrite A1 in F. exact F. }
  rewrite (drain_fits c l FL) in D. injection D as <- <-. unfold given, completed in *. rewrite !sel_app, A1, A2, A3, A4, app_nil_r. repeat split; auto.
Qed.
Theorem C111_partial : forall c l s t, run c k0 l = Some (s, t) -> Forall (fits c) (completed t) -> given t = completed t /\ k_dead s = false.
Proof.
  intros c l. assert (G : (k_kcp k0 = None \/ k_kcp k0 = Some []) /\ k_dead k0 = false) by (split; [left|]; reflexivity). revert G. generalize k0 as s0.
  induction l as [|a l IH]; intros s0 G s t R F; cbn in R; [injection R as <- <-; split; [reflexivity | apply G]|].
  destruct (step c s0 a) as [[s1 e1]|] eqn:D; [|discriminate]. destruct (run c s1 l) as [[s2 e2]|] eqn:R2; [|discriminate].
  injection R as <- <-. unfold completed in F. rewrite sel_app in F. apply Forall_app in F. destruct F as [F1 F2].
  destruct (C111_step c s0 a s1 e1 G D F1) as (E & K). destruct (IH s1 K _ _ R2 F2) as [E2 X]. split; [|exact X].
  unfold given, completed in *. rewrite !sel_app, E, E2. reflexivity.
Qed.
Print Assumptions C111_partial.
Example C111_ex : exists s t, run c_rel k0 [KCreate; KStart true true; KData [1] []; KData [2] [[1]; []; [2; 3]]; KUpdate; KData [5] [[4]]] = Some (s, t) /\
  completed t = [[1]; []; [2; 3]; [4]] /\ Forall (fits c_rel) (completed t).
Proof.
  do 2 eexists. split; [vm_compute; reflexivity|]. split; [reflexivity|]. cbn. repeat constructor; cbn; auto; vm_compute; discriminate.
Qed.

(** ** C112: what is reported as sent is on its way *)
Definition C112_statement : Prop := forall c l s t, run c k0 l = Some (s, t) -> reported t = taken t.
Theorem C112_refuted : exists s t, run (mk_cfg 4000 3 true false) k0 [KCreate; KStart true true; KSend [1; 2; 3; 4]; KSend [5]] = Some (s, t) /\
  reported t = [[1; 2; 3; 4]; [5]] /\ taken t = [[5]].
Proof. do 2 eexists. split; [vm_compute; reflexivity|]. split; reflexivity. Qed.
Print Assumptions C112_refuted.
Theorem C112_statement_refuted : ~ C112_statement.
Proof. intro C. destruct C112_refuted as (s & t & R & A & B). pose proof (C _ _ _ _ R) as X. rewrite A, B in X. discriminate. Qed.
Print Assumptions C112_statement_refuted.
Lemma drain_none : forall c q r e x f, (forall m, f (EGive m) = None) -> drain c q = (r, e, x) -> sel f e = [].
Proof.
  induction q as [|m q IH]; intros r e x f F D; cbn in D; [injection D as <- <- <-; reflexivity|].
  destruct (c_buf c <? len m); [injection D as <- <- <-; reflexivity|]. destruct (c_debug c && (len m =? 0)); [injection D as <- <- <-; reflexivity|].
  destruct (drain c q) as [[r' e'] x'] eqn:E. injection D as <- <- <-. cbn. rewrite F. exact (IH _ _ _ f F eq_refl).
Qed.
Lemma sel_none : forall f l, (forall m, f (EDone m) = None) -> sel f (map EDone l) = [].
Proof. induction l as [|m l IH]; intro F; [reflexivity|]. cbn. rewrite F. exact (IH F). Qed.
Theorem C112_partial : forall c l s t, run c k0 l = Some (s, t) -> (forall m, In m (asked l) -> len m <= c_max c) -> reported t = taken t /\ taken t = asked l.
Proof.
  intros c l. generalize k0 as s0. induction l as [|a l IH]; intros s0 s t R F; cbn in R; [injection R as <- <-; split; reflexivity|].
  destruct (step c s0 a) as [[s1 e1]|] eqn:D; [|discriminate]. destruct (run c s1 l) as [[s2 e2]|] eqn:R2; [|discriminate].
  injection R as <- <-. assert (F2 : forall m, In m (asked l) -> len m <= c_max c) by (intros m I; apply F; cbn; apply in_or_app; right; exact I).
  destruct (IH s1 _ _ R2 F2) as [E T]. unfold reported, taken in *. rewrite !sel_app, E, T.
  assert (G : sel (fun e => match e with ESent m => Some m | _ => None end) e1 = asked [a] /\ sel (fun e => match e with EKcp m | EWire m => Some m | _ => None end) e1 = asked [a]).
  { destruct a; try (cases D; split; reflexivity).
    - unfold step in D. destruct (k_dead s0); [discriminate|]. destruct (negb (k_started s0) || k_busy s0); [discriminate|].
      destruct (k_kcp s0) as [q|]; [destruct (k_conn s0)|]; try (injection D as <- <-; split; reflexivity).
      destruct (drain c (q ++ l0)) as [[r e] x] eqn:E1. injection D as <- <-. rewrite !sel_app, !sel_none by reflexivity. cbn.
      split; apply (drain_none c (q ++ l0) r e x); auto.
    - assert (B : len m <=? c_max c = true) by (apply N.leb_le; apply F; left; reflexivity).
      unfold step in D. rewrite B in D. destruct (k_dead s0); [discriminate|]. destruct (negb (k_started s0) || k_busy s0); [discriminate|].
      destruct (k_kcp s0) as [q|]; [destruct (k_conn s0)|]; injection D as <- <-; split; reflexivity. }
  destruct G as [-> ->]. split; [reflexivity|]. unfold asked. cbn. rewrite app_nil_r. reflexivity.
Qed.
Print Assumptions C112_partial.
Example C112_ex : exists s t, run c_rel k0 [KCreate; KStart true true; KSend [1; 2; 3; 4]; KSend [5]] = Some (s, t) /\ reported t = [[1; 2; 3; 4]; [5]] /\
  (forall m, In m (asked [KCreate; KStart true true; KSend [1; 2; 3; 4]; KSend [5]]) -> len m <= c_max c_rel).
Proof. do 2 eexists. split; [vm_compute; reflexivity|]. split; [reflexivity|]. intros m [<- | [<- | []]]; vm_compute; discriminate. Qed.

(** ** C113: a socket with a control block exchanges nothing without KCP *)
Definition C113_statement : Prop := forall c l s t a s' e, run c k0 l = Some (s, t) -> k_kcp s <> None -> step c s a = Some (s', e) -> existsb is_raw e = false.
(** connect() fails, for example because the peer's address was not set: the socket works unreliably, and gives KCP's segments to the application *)
Theorem C113_refuted : exists s t, run c_rel k0 [KCreate; KStart true false] = Some (s, t) /\ k_started s = true /\ k_kcp s <> None /\
  (forall d l, step c_rel s (KData d l) = Some (s, [ERaw d])) /\ (forall m, step c_rel s (KSend m) = Some (s, [EWire m; ESent m])).
Proof. do 2 eexists. split; [vm_compute; reflexivity|]. split; [reflexivity|]. split; [discriminate|]. split; reflexivity. Qed.
Print Assumptions C113_refuted.
Theorem C113_statement_refuted : ~ C113_statement.
Proof. intro C. destruct C113_refuted as (s & t & R & _ & K & _ & H). pose proof (C _ _ _ _ _ _ _ R K (H [])) as X. discriminate. Qed.
Print Assumptions C113_statement_refuted.
Lemma drain_raw : forall c q r e x, drain c q = (r, e, x) -> existsb is_raw e = false.
Proof.
  induction q as [|m q IH]; intros r e x D; cbn in D; [injection D as <- <- <-; reflexivity|].
  destruct (c_buf c <? len m); [injection D as <- <- <-; reflexivity|]. destruct (c_debug c && (len m =? 0)); [injection D as <- <- <-; reflexivity|].
  destruct (drain c q) as [[r' e'] x'] eqn:E. injection D as <- <- <-. cbn. exact (IH _ _ _ eq_refl).
Qed.
Theorem C113_partial : forall c l s t a s' e, c_mode c = true -> connects l = true -> run c k0 l = Some (s, t) -> k_kcp s <> None -> step c s a = Some (s', e) -> existsb is_raw e = false.
Proof.
  intros c l s t a s' e M F R K D.
  assert (J : k_started s = true -> k_conn s = true).
  { unfold connects in F. revert F R. apply (run_inv c (fun s => k_started s = true -> k_conn s = true)); [|discriminate].
    clear - M. intros s a s' e J Q D. destruct s as [st cl cn kq tm bu de]; pj. destruct a; cases D; intros; try discriminate; auto. }
  destruct s as [st cl cn kq tm bu de]; pj. destruct kq as [q|]; [|congruence]. destruct a; cases D; try reflexivity; try (cbn in *; specialize (J eq_refl); discriminate).
  all: try (destruct st; [specialize (J eq_refl); discriminate | discriminate]).
  rewrite existsb_app, (drain_raw _ _ _ _ _ E0), orb_false_r. clear. induction l0 as [|x l0 IH]; [reflexivity | exact IH].
Qed.
Print Assumptions C113_partial.
Example C113_ex : exists s t, run c_rel k0 [KCreate; KStart false false; KStart true true; KData [1] [[2]]] = Some (s, t) /\ connects [KCreate; KStart false false; KStart true true; KData [1] [[2]]] = true /\ k_kcp s <> None /\ k_started s = true.
Proof. do 2 eexists. split; [vm_compute; reflexivity|]. split; [reflexivity|]. split; [discriminate | reflexivity]. Qed.

(** without connected mode it is the other way round: KCP is never used, whether a control block was created or not *)
Theorem C113_unconnected : forall c l s t, c_mode c = false -> run c k0 l = Some (s, t) ->
  completed t = [] /\ given t = [] /\ taken t = sel (fun e => match e with EWire m => Some m | _ => None end) t /\
  (forall d q, k_started s = true -> k_busy s = false -> step c s (KData d q) = Some (s, [ERaw d])).
Proof.
  intros c l s t M R.
  assert (G : forall l s0 s t, k_conn s0 = false -> k_dead s0 = false -> run c s0 l = Some (s, t) -> k_conn s = false /\ k_dead s = false /\ completed t = [] /\ given t = [] /\ taken t = sel (fun e => match e with EWire m => Some m | _ => None end) t).
  { clear l s t R. induction l as [|a l IH]; intros s0 s t C D R; cbn in R; [injection R as <- <-; auto|].
    destruct (step c s0 a) as [[s1 e1]|] eqn:E; [|discriminate R]. destruct (run c s1 l) as [[s2 e2]|] eqn:R2; [|discriminate R]. injection R as <- <-.
    assert (H : k_conn s1 = false /\ k_dead s1 = false /\ completed e1 = [] /\ given e1 = [] /\ taken e1 = sel (fun e => match e with EWire m => Some m | _ => None end) e1).
    { destruct s0 as [st cl cn kq tm bu de]; pj. subst cn de. destruct a; cases E; try congruence; auto. }
    destruct H as (A & B & H1 & H2 & H3). destruct (IH _ _ _ A B R2) as (A2 & B2 & I1 & I2 & I3).
    split; [exact A2|]. split; [exact B2|]. unfold completed, given, taken in *. rewrite !sel_app, H1, H2, H3, I1, I2, I3. auto. }
  destruct (G l k0 s t eq_refl eq_refl R) as (A & B & H1 & H2 & H3). split; [exact H1|]. split; [exact H2|]. split; [exact H3|].
  intros d q S U. unfold step. rewrite B, S, U, A. cbn. destruct (k_kcp s); reflexivity.
Qed.
Print Assumptions C113_unconnected.
Example C113_unconnected_ex : exists s t, run (mk_cfg 4000 174000 false false) k0 [KCreate; KStart true true; KData [1] [[2]]; KSend [5]] = Some (s, t) /\
  k_kcp s <> None /\ k_started s = true /\ k_busy s = false /\ t = [ERaw [1]; EWire [5]; ESent [5]].
Proof. do 2 eexists. split; [vm_compute; reflexivity|]. split; [discriminate|]. repeat split; reflexivity. Qed.

(** ** C114: a socket that could not be started leaves nothing running *)
Definition C114_statement : Prop := forall c l s t, run c k0 l = Some (s, t) -> k_started s = false -> k_closing s = false -> k_timer s = false.
(** bind() fails: the timer goes on whatever the application does, force_shutdown included, unless the socket is started once more with success *)
Theorem C114_refuted : exists s t, run c_rel k0 [KCreate; KStart false true] = Some (s, t) /\ k_started s = false /\ k_closing s = false /\
  (forall l s' t', starts l = false -> run c_rel s l = Some (s', t') -> k_started s' = false /\ k_timer s' = true /\ (k_busy s' = false -> step c_rel s' KUpdate = Some (s', [EUpdate]))).
Proof.
  do 2 eexists. split; [vm_compute; reflexivity|]. split; [reflexivity|]. split; [reflexivity|].
  intros l s' t' F R.
  assert (F2 : forallb (fun a => negb (match a with KStart true _ => true | _ => false end)) l = true).
  { clear R. unfold starts in F. induction l as [|a l IH]; [reflexivity|]. cbn in *. apply orb_false_iff in F. destruct F as [F1 F2]. rewrite F1, (IH F2). reflexivity. }
  assert (J : k_started s' = false /\ k_closing s' = false /\ k_timer s' = true /\ k_dead s' = false /\ k_kcp s' <> None).
  { revert F2 R. apply (run_inv c_rel (fun s => k_started s = false /\ k_closing s = false /\ k_timer s = true /\ k_dead s = false /\ k_kcp s <> None));
      [|cbn; repeat split; discriminate].
    clear. intros s a s' e (J1 & J2 & J3 & J4 & J5) Q D. destruct s as [st cl cn kq tm bu de]; pj. subst.
    destruct a; cases D; try congruence; repeat split; auto; discriminate. }
  destruct J as (J1 & J2 & J3 & J4 & J5). split; [exact J1|]. split; [exact J3|]. intro B. unfold step. rewrite J4, J3, B. cbn. destruct (k_kcp s'); [reflexivity | congruence].
Qed.
Print Assumptions C114_refuted.
Theorem C114_statement_refuted : ~ C114_statement.
Proof.
  intro C. destruct C114_refuted as (s & t & R & A & B & H). pose proof (C _ _ _ _ R A B) as X. destruct (H [] s [] eq_refl eq_refl) as (_ & T & _). congruence.
Qed.
Print Assumptions C114_statement_refuted.
Definition J114 (s : kst) : Prop := (k_timer s = true -> k_started s = true) /\ (k_closing s = true -> k_started s = false) /\ (k_busy s = true -> k_started s = true \/ k_closing s = true).
Lemma J114_step : forall c s a s' e, J114 s -> (match a with KStart x _ => x | _ => true end) = true -> step c s a = Some (s', e) -> J114 s'.
Proof.
  intros c s a s' e (J1 & J2 & J3) Q D. destruct s as [st cl cn kq tm bu de]; pj. unfold J114.
  destruct a; try (rename bound into bd; destruct bd; [|discriminate Q]); destruct st, cl; cases D; repeat split; auto; intros; try discriminate; auto;
  try (specialize (J2 eq_refl); discriminate); try (destruct tm; auto; discriminate); try (destruct bu; discriminate); try (destruct (J3 H); discriminate).
Qed.
Lemma J114_0 : J114 k0.
Proof. repeat split; discriminate. Qed.
Theorem C114_partial : forall c l s t, binds l = true -> run c k0 l = Some (s, t) -> k_started s = false -> k_timer s = false.
Proof.
  intros c l s t F R S. destruct (run_inv c J114 _ (J114_step c) l k0 s t J114_0 F R) as (J1 & _). destruct (k_timer s); [rewrite (J1 eq_refl) in S; discriminate | reflexivity].
Qed.
Print Assumptions C114_partial.
Example C114_ex : exists s t, run c_rel k0 [KCreate; KStart true true; KUpdate; KClose] = Some (s, t) /\ k_started s = false /\ binds [KCreate; KStart true true; KUpdate; KClose] = true.
Proof. do 2 eexists. split; [vm_compute; reflexivity|]. split; reflexivity. Qed.

(** ** C115: the control block is not released while it is used *)
Definition C115_statement : Prop := forall c l s t, run c k0 l = Some (s, t) -> existsb is_gone t = false.
(** create_kcpcb after a start that failed, while the timer's handler runs; and while the socket is closing *)
Theorem C115_refuted : exists s t, run c_rel k0 [KCreate; KStart false true; KEnter; KCreate] = Some (s, t) /\ existsb is_gone t = true.
Proof. do 2 eexists. split; [vm_compute; reflexivity | reflexivity]. Qed.
Print Assumptions C115_refuted.
Theorem C115_closing_refuted : exists s t, run c_rel k0 [KCreate; KStart true true; KEnter; KClose; KCreate] = Some (s, t) /\ existsb is_gone t = true.
Proof. do 2 eexists. split; [vm_compute; reflexivity | reflexivity]. Qed.
Print Assumptions C115_closing_refuted.
Theorem C115_statement_refuted : ~ C115_statement.
Proof. intro C. destruct C115_refuted as (s & t & R & X). rewrite (C _ _ _ _ R) in X. discriminate. Qed.
Print Assumptions C115_statement_refuted.
Lemma drain_gone : forall c q r e x, drain c q = (r, e, x) -> existsb is_gone e = false.
Proof.
  induction q as [|m q IH]; intros r e x D; cbn in D; [injection D as <- <- <-; reflexivity|].
  destruct (c_buf c <? len m); [injection D as <- <- <-; reflexivity|]. destruct (c_debug c && (len m =? 0)); [injection D as <- <- <-; reflexivity|].
  destruct (drain c q) as [[r' e'] x'] eqn:E. injection D as <- <- <-. cbn. exact (IH _ _ _ eq_refl).
Qed.
Theorem C115_partial : forall c l s t, binds l = true -> tidy c k0 l -> run c k0 l = Some (s, t) -> existsb is_gone t = false.
Proof.
  intros c l. generalize J114_0. generalize k0 as s0. induction l as [|a l IH]; intros s0 J s t F T R; cbn in R; [injection R as <- <-; reflexivity|].
  cbn in F, T. apply andb_prop in F. destruct F as [F1 F2]. destruct T as [T1 T2].
  destruct (step c s0 a) as [[s1 e1]|] eqn:D; [|discriminate]. destruct (run c s1 l) as [[s2 e2]|] eqn:R2; [|discriminate].
  injection R as <- <-. rewrite existsb_app, (IH s1 (J114_step c s0 a s1 e1 J F1 D) _ _ F2 T2 R2), orb_false_r.
  clear IH R2 T2 F2 F1. destruct J as (J1 & J2 & J3). destruct s0 as [st cl cn kq tm bu de]; pj. destruct a; cases D; try reflexivity.
  - rewrite (T1 eq_refl) in *. destruct (J3 eq_refl); discriminate.
  - rewrite existsb_app, (drain_gone _ _ _ _ _ E0), orb_false_r. clear. induction l0 as [|x l0 IH]; [reflexivity | exact IH].
Qed.
Print Assumptions C115_partial.
(** ... and the block a handler is using is still there *)
Theorem C115_used_block_exists_partial : forall c l s t, binds l = true -> tidy c k0 l -> run c k0 l = Some (s, t) -> k_busy s = true -> k_kcp s <> None.
Proof.
  intros c l s t F T R. cut (J114 s /\ (k_busy s = true -> k_kcp s <> None)); [tauto|].
  revert F T R. assert (J0 : J114 k0 /\ (k_busy k0 = true -> k_kcp k0 <> None)) by (split; [exact J114_0|discriminate]). revert J0.
  generalize k0 as s0. revert s t. induction l as [|a l IH]; intros s t s0 J F T R; cbn in R; [injection R as <- <-; exact J|].
  cbn in F, T. apply andb_prop in F. destruct F as [F1 F2]. destruct T as [T1 T2].
  destruct (step c s0 a) as [[s1 e1]|] eqn:D; [|discriminate]. destruct (run c s1 l) as [[s2 e2]|] eqn:R2; [|discriminate].
  injection R as <- <-. refine (IH _ _ s1 _ F2 T2 R2). destruct J as [J B]. split; [exact (J114_step c s0 a s1 e1 J F1 D)|].
  clear IH R2 T2 F2 F1. destruct J as (J1 & J2 & J3). destruct s0 as [st cl cn kq tm bu de]; pj. destruct a; cases D; auto; intros; try discriminate; auto;
  subst; rewrite ?andb_false_r in *; discriminate.
Qed.
Print Assumptions C115_used_block_exists_partial.
Lemma on_close_none : forall c l s0 s t, run c s0 (l ++ [KOnClose]) = Some (s, t) -> k_kcp s = None.
Proof.
  intros c. induction l as [|a l IH]; intros s0 s t R; cbn in R.
  - unfold step in R. destruct (k_dead s0); [discriminate|]. destruct (k_closing s0 && negb (k_busy s0)); [injection R as <- _; reflexivity | discriminate].
  - destruct (step c s0 a) as [[s1 e1]|] eqn:D; [|discriminate]. destruct (run c s1 (l ++ [KOnClose])) as [[s2 e2]|] eqn:R2; [|discriminate].
    injection R as <- <-. exact (IH _ _ _ R2).
Qed.
(** after on_close nothing of the old control block is left: unless a new one is created, no message passes KCP and nothing is updated *)
Theorem C115_gone_after_close : forall c l s t s' t' l', run c k0 (l ++ [KOnClose]) = Some (s, t) -> creates l' = false -> run c s l' = Some (s', t') -> existsb is_kcp t' = false.
Proof.
  intros c l s t s' t' l' R F R'.
  pose proof (on_close_none _ _ _ _ _ R) as K.
  clear R. revert s K F s' t' R'. induction l' as [|a l' IH]; intros s K F s' t' R'; cbn in R'; [injection R' as _ <-; reflexivity|].
  destruct (step c s a) as [[s1 e1]|] eqn:D; [|discriminate]. destruct (run c s1 l') as [[s2 e2]|] eqn:R2; [|discriminate].
  injection R' as _ <-. cbn in F. apply orb_false_iff in F. destruct F as [F1 F2].
  assert (X : k_kcp s1 = None /\ existsb is_kcp e1 = false).
  { clear IH R2 F2. destruct s as [st cl cn kq tm bu de]; pj. subst. destruct a; cases D; auto; discriminate. }
  destruct X as [K1 X]. rewrite existsb_app, X. exact (IH s1 K1 F2 _ _ R2).
Qed.
Print Assumptions C115_gone_after_close.
Example C115_gone_ex : exists s t s' t', run c_rel k0 ([KCreate; KStart true true; KData [1] [[2]]; KClose] ++ [KOnClose]) = Some (s, t) /\ run c_rel s [KStart true true; KData [1] []; KSend [3]] = Some (s', t') /\ t' = [ERaw [1]; EWire [3]; ESent [3]] /\ existsb is_kcp t = true.
Proof. do 4 eexists. split; [vm_compute; reflexivity|]. split; [vm_compute; reflexivity|]. split; reflexivity. Qed.
Definition l_tidy : list act := [KCreate; KStart true true; KEnter; KClose; KLeave; KOnClose; KCreate; KStart true true; KEnter; KLeave].
Example C115_ex : exists s t, run c_rel k0 l_tidy = Some (s, t) /\ binds l_tidy = true /\ tidy c_rel k0 l_tidy.
Proof. do 2 eexists. split; [vm_compute; reflexivity|]. split; [reflexivity|]. cbn. repeat split; intro; discriminate. Qed.

(** ** C116: while the socket runs, KCP is updated again and again *)
Theorem C116 : forall c l s t, run c k0 l = Some (s, t) -> k_started s = true -> k_kcp s <> None -> k_dead s = false ->
  exists k s' t', forallb library k = true /\ run c s k = Some (s', t') /\ In EUpdate t' /\ k_started s' = true.
Proof.
  intros c l s t R S K X.
  assert (J : k_started s = true -> k_kcp s <> None -> k_timer s = true).
  { apply (run_inv c (fun s => k_started s = true -> k_kcp s <> None -> k_timer s = true) (fun _ => true)) with (l := l) (s := k0) (t := t); [|discriminate | | exact R].
    - clear. intros s a s' e J _ D. destruct s as [st cl cn kq tm bu de]; pj. destruct a; cases D; auto; intros; try discriminate; try congruence; auto.
      destruct st; [apply J; [reflexivity | discriminate] | discriminate].
    - clear. induction l; [reflexivity | exact IHl]. }
  specialize (J S K). destruct s as [st cl cn kq tm bu de]; pj. subst. destruct kq as [q|]; [|congruence].
  destruct bu; [exists [KLeave; KUpdate] | exists [KUpdate]]; do 2 eexists; (split; [reflexivity|]; split; [cbn; reflexivity|]; split; [left; reflexivity | reflexivity]).
Qed.
Print Assumptions C116.
Example C116_ex : exists s t, run c_rel k0 [KCreate; KStart true true; KData [1] [[2]]; KEnter] = Some (s, t) /\ k_started s = true /\ k_kcp s <> None /\ k_dead s = false.
Proof. do 2 eexists. split; [vm_compute; reflexivity|]. split; [reflexivity|]. split; [discriminate | reflexivity]. Qed.
