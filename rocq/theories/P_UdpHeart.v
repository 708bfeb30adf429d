(** C148: the heartbeat of a UDP socket. *)
From Coq Require Import List ZArith Bool Lia ZifyBool.
From Verif Require Import M_UdpHeart S_UdpHeart.
Import ListNotations.
Open Scope Z_scope.

Lemma uwall_ge off a b k : k <= uwall off a - uwall off b -> (k - 1) * 1000 < a - b.
Proof. unfold uwall. intros G. pose proof (Z.div_mod (a + off) 1000 ltac:(lia)). pose proof (Z.div_mod (b + off) 1000 ltac:(lia)). pose proof (Z.mod_pos_bound (a + off) 1000 ltac:(lia)). pose proof (Z.mod_pos_bound (b + off) 1000 ltac:(lia)). lia. Qed.
Lemma uwall_lt off a b k : uwall off a - uwall off b < k -> a - b < k * 1000.
Proof. unfold uwall. intros G. pose proof (Z.div_mod (a + off) 1000 ltac:(lia)). pose proof (Z.div_mod (b + off) 1000 ltac:(lia)). pose proof (Z.mod_pos_bound (a + off) 1000 ltac:(lia)). pose proof (Z.mod_pos_bound (b + off) 1000 ltac:(lia)). lia. Qed.
Lemma uwall_mono off a b : a <= b -> uwall off a <= uwall off b.
Proof. intros L. apply Z.div_le_mono; lia. Qed.
Ltac pj := cbn [u_t u_off u_recv u_send u_busy u_queue u_due push] in *.

Lemma any_app t0 tr e r : any_known t0 (tr ++ e) r <-> any_known t0 tr r \/ (exists p, In (r, VRecv p) e) \/ In (r, VWarn) e.
Proof. unfold any_known. setoid_rewrite in_app_iff. firstorder. Qed.

(** ** receiving *)
Record RI (c : ucfg) (t0 off : Z) (s : ust) (tr : list (Z * uout)) (r : Z) : Prop := mk_RI {
  ri_off : u_off s = off;
  ri_r : any_known t0 tr r; ri_rm : forall r', any_known t0 tr r' -> r' <= r; ri_rt : t0 <= r <= u_t s; ri_recv : u_recv s = uwall off r;
  ri_due : u_due s <= u_t s + uc_int c * 1000;
  ri_chk : u_due s - uc_int c * 1000 - r < uc_int c * uc_max c * 1000;
  ri_late : u_t s <= u_due s + uc_late c;
  ri_warn : forall a t b, tr = a ++ (t, VWarn) :: b -> forall r', any_known t0 a r' -> (uc_int c * uc_max c - 1) * 1000 < t - r'
}.
Lemma RI_init c t0 off : uc_ok c -> RI c t0 off (u0 c t0 off) [] t0.
Proof.
  intros (C1 & C2 & C3 & C4 & _). constructor; unfold u0; pj; try reflexivity; try lia.
  - left. reflexivity.
  - intros r [->|[(p & [])|[]]]. lia.
  - intros a t b E. destruct a; discriminate E.
Qed.
(** events without a report *)
Lemma warn_keep c t0 tr e : (forall a t b, tr = a ++ (t, VWarn) :: b -> forall r', any_known t0 a r' -> (uc_int c * uc_max c - 1) * 1000 < t - r') -> (forall t, ~ In (t, VWarn) e) ->
  forall a t b, tr ++ e = a ++ (t, VWarn) :: b -> forall r', any_known t0 a r' -> (uc_int c * uc_max c - 1) * 1000 < t - r'.
Proof.
  intros H N a t b E. apply app_eq_app in E. destruct E as (l & [(E1 & E2)|(E1 & E2)]).
  - destruct l as [|x l]; [cbn in E2; destruct (N t); rewrite <- E2; left; reflexivity|]. injection E2 as <- ->. exact (H _ _ _ E1).
  - destruct (N t). rewrite E2. apply in_or_app. right. left. reflexivity.
Qed.

Lemma push_fields s t d : u_t (push s t d) = t /\ u_off (push s t d) = u_off s /\ u_recv (push s t d) = u_recv s /\ u_send (push s t d) = u_send s /\ u_due (push s t d) = u_due s.
Proof. unfold push. destruct (u_busy s); repeat split. Qed.

Lemma RI_step c t0 off s tr r x s' e : uc_ok c -> 0 < uwall off t0 -> RI c t0 off s tr r -> (forall z, snd x <> UAdjust z) -> ustep c s x = Some (s', e) ->
  u_t s <= u_t s' /\ exists r', RI c t0 off s' (tr ++ e) r'.
Proof.
  intros (C1 & C2 & C3 & C4 & C5 & C6) W0 [A B1 B2 B3 B4 E1 E2 E3 R] NA S. destruct x as [t i]. cbn [ustep] in S.
  destruct (u_t s <=? t) eqn:T1; [|discriminate]. destruct (t <=? u_due s + uc_late c) eqn:T2; [|discriminate]. cbn [andb] in S. destruct (match u_busy s with Some (b, _) => t <=? b + uc_slow c | None => true end) eqn:T3; [|discriminate].
  (* events that tell nothing *)
  assert (QUIET : forall s1 e1, u_t s1 = t -> u_off s1 = u_off s -> u_recv s1 = u_recv s -> u_due s1 = u_due s -> (forall q o, In (q, o) e1 -> match o with VSent _ | VBeat => True | _ => False end) -> RI c t0 off s1 (tr ++ e1) r).
  { intros s1 e1 H1 H2 H3 H4 H5. constructor; rewrite ?H1, ?H2, ?H3, ?H4; try assumption; try lia.
    - apply any_app. auto.
    - intros q Q. apply any_app in Q. destruct Q as [Q|[(p & Q)|Q]]; [exact (B2 _ Q)| |]; apply H5 in Q; contradiction.
    - apply warn_keep; [exact R|]. intros q Q. apply H5 in Q. exact Q. }
  destruct i as [p|p| | | |z].
  - destruct (uc_conn c && negb p); [discriminate|]. injection S as <- <-. pj. split; [lia|]. exists t. constructor; pj; try assumption; try reflexivity; try lia; [| |rewrite A; reflexivity|].
    + apply any_app. right. left. exists p. left. reflexivity.
    + intros q Q. apply any_app in Q. destruct Q as [Q|[(p' & [Q|[]])|[Q|[]]]]; [specialize (B2 _ Q); lia|inversion Q; lia|discriminate Q].
    + apply warn_keep; [exact R|]. intros q [Q|[]]. discriminate Q.
  - injection S as <- <-. destruct (push_fields s t (uc_conn c || p)) as (F1 & F2 & F3 & _ & F4). rewrite F1. split; [lia|]. exists r. apply QUIET; auto. intros q o [].
  - destruct (u_busy s) as [[b d]|]; [|discriminate]. injection S as <- <-. split; [destruct (u_queue s); pj; lia|]. exists r. apply QUIET; try (destruct (u_queue s); reflexivity). intros q o [Q|[]]. injection Q as <- <-. exact I.
  - destruct (u_due s <=? t) eqn:T4; [|discriminate]. injection S as S. unfold ucheck in S. assert (P : 0 < u_recv s) by (rewrite B4; pose proof (uwall_mono off t0 r ltac:(lia)); lia). replace (0 <? u_recv s) with true in S by lia. rewrite A, B4 in S.
    destruct (uc_int c * uc_max c <=? uwall off t - uwall off r) eqn:DR.
    + assert (G : (uc_int c * uc_max c - 1) * 1000 < t - r) by (apply (uwall_ge off); lia).
      assert (GO : forall s1 e1, u_t s1 = t -> u_off s1 = off -> u_recv s1 = uwall off t -> u_due s1 = t + uc_int c * 1000 -> e1 = [(t, VWarn)] \/ e1 = [(t, VWarn); (t, VBeat)] -> RI c t0 off s1 (tr ++ e1) t).
      { intros s1 e1 H1 H2 H3 H4 H5. constructor; rewrite ?H1, ?H2, ?H3, ?H4; try assumption; try reflexivity; try lia.
        - apply any_app. right. right. destruct H5 as [-> | ->]; left; reflexivity.
        - intros q Q. apply any_app in Q. destruct Q as [Q|Q]; [specialize (B2 _ Q); lia|]. destruct H5 as [-> | ->]; destruct Q as [(p & Q)|Q]; cbn in Q; repeat destruct Q as [Q|Q]; try contradiction; try discriminate Q; inversion Q; lia.
        - assert (ONE : forall a q b, tr ++ [(t, VWarn)] = a ++ (q, VWarn) :: b -> forall r', any_known t0 a r' -> (uc_int c * uc_max c - 1) * 1000 < q - r').
          { intros a q b E r' K. destruct b as [|y b] using rev_ind.
            - apply app_inj_tail in E. destruct E as (-> & E). inversion E; subst. specialize (B2 _ K). lia.
            - rewrite app_comm_cons, app_assoc in E. apply app_inj_tail in E. destruct E as (E & _). exact (R _ _ _ E _ K). }
          destruct H5 as [-> | ->]; [exact ONE|]. change [(t, VWarn); (t, VBeat)] with ([(t, VWarn)] ++ [(t, VBeat)]). rewrite app_assoc. apply warn_keep; [exact ONE|]. intros q [Q|[]]. discriminate Q. }
      pj. destruct (uc_always c || _).
      * injection S as <- <-. pj. match goal with |- context [push ?x ?y ?z] => destruct (push_fields x y z) as (F1 & F2 & F3 & _ & F4) end. rewrite F2, F3. split; [lia|]. exists t. apply GO; pj; auto.
      * injection S as <- <-. pj. split; [lia|]. exists t. apply GO; pj; auto.
    + assert (CK : t - r < uc_int c * uc_max c * 1000) by (apply (uwall_lt off); lia).
      assert (GO : forall s1 e1, u_t s1 = t -> u_off s1 = off -> u_recv s1 = uwall off r -> u_due s1 = t + uc_int c * 1000 -> (forall q o, In (q, o) e1 -> match o with VSent _ | VBeat => True | _ => False end) -> RI c t0 off s1 (tr ++ e1) r).
      { intros s1 e1 H1 H2 H3 H4 H5. constructor; rewrite ?H1, ?H2, ?H3, ?H4; try assumption; try reflexivity; try lia.
        - apply any_app. auto.
        - intros q Q. apply any_app in Q. destruct Q as [Q|[(p & Q)|Q]]; [exact (B2 _ Q)| |]; apply H5 in Q; contradiction.
        - apply warn_keep; [exact R|]. intros q Q. apply H5 in Q. exact Q. }
      destruct (uc_always c || _).
      * injection S as <- <-. pj. destruct (push_fields s t true) as (F1 & F2 & F3 & _ & F4). rewrite F2, F3. split; [lia|]. exists r. apply GO; pj; auto. intros q o [Q|[]]. injection Q as <- <-. exact I.
      * injection S as <- <-. pj. split; [lia|]. exists r. apply GO; pj; auto. intros q o [].
  - injection S as <- <-. pj. split; [lia|]. exists r. apply QUIET; auto. intros q o [].
  - destruct (NA z eq_refl).
Qed.
Lemma RI_steps c t0 off : uc_ok c -> 0 < uwall off t0 -> forall l s tr r s' tr', RI c t0 off s tr r -> usteady l -> usteps c s l = Some (s', tr') -> exists r', RI c t0 off s' (tr ++ tr') r'.
Proof.
  intros OK W. induction l as [|x l IH]; intros s tr r s' tr' I ST S; cbn [usteps] in S; [injection S as <- <-; exists r; rewrite app_nil_r; exact I|].
  destruct (ustep c s x) as [[s1 t1]|] eqn:E; [|discriminate]. destruct (usteps c s1 l) as [[s2 t2]|] eqn:E2; [|discriminate]. injection S as <- <-.
  destruct (RI_step c t0 off s tr r x s1 t1 OK W I) as (_ & r1 & I1); [intros z Z; apply (ST (fst x) z); left; rewrite <- Z; destruct x; reflexivity|exact E|].
  rewrite app_assoc. apply (IH _ _ _ _ _ I1); [|exact E2]. intros t z Q. exact (ST t z (or_intror Q)).
Qed.

(** strangers are not heard *)
Lemma recv_from c : forall l s s' tr, usteps c s l = Some (s', tr) -> uc_conn c = true \/ hears_peer_only l -> forall t, ~ In (t, VRecv false) tr.
Proof.
  induction l as [|x l IH]; intros s s' tr S H t; cbn [usteps] in S; [injection S as <- <-; intros []|].
  destruct (ustep c s x) as [[s1 t1]|] eqn:E; [|discriminate]. destruct (usteps c s1 l) as [[s2 t2]|] eqn:E2; [|discriminate]. injection S as <- <-. intros I. apply in_app_or in I. destruct I as [I|I].
  - destruct x as [q i]. cbn [ustep] in E. destruct (_ && _); [|discriminate]. destruct i as [p|p| | | |z].
    + destruct (uc_conn c && negb p) eqn:CN; [discriminate|]. injection E as <- <-. destruct I as [I|[]]. injection I as <- ->. destruct H as [H|H]; [rewrite H in CN; discriminate|]. exact (H q (or_introl eq_refl)).
    + injection E as <- <-. exact I.
    + destruct (u_busy s) as [[b d]|]; [|discriminate]. injection E as <- <-. destruct I as [I|[]]. discriminate I.
    + destruct (u_due s <=? q); [|discriminate]. injection E as E. unfold ucheck in E. destruct (0 <? u_recv s); [|injection E as <- <-; exact I].
      destruct (uc_int c * uc_max c <=? _); destruct (uc_always c || _); injection E as <- <-; cbn in I; repeat destruct I as [I|I]; try discriminate I; try contradiction.
    + injection E as <- <-. exact I.
    + injection E as <- <-. exact I.
  - refine (IH _ _ _ E2 _ t I). destruct H as [H|H]; [auto|]. right. intros q Q. exact (H q (or_intror Q)).
Qed.

(** With connect mode, or if nobody but the peer sends anything to the socket: at any time, less than interval * (max_absence + 1) seconds ago
    (plus what the timer is late) the peer was heard of or its silence was reported. *)
Theorem C148_partial : forall c t0 off l s tr, uc_conn c = true \/ hears_peer_only l -> uc_ok c -> 0 < uwall off t0 -> usteady l -> usteps c (u0 c t0 off) l = Some (s, tr) ->
  exists r, peer_known t0 tr r /\ u_t s - r < uc_int c * (uc_max c + 1) * 1000 + uc_late c.
Proof.
  intros c t0 off l s tr H OK W ST S. destruct (RI_steps c t0 off OK W _ _ _ _ _ _ (RI_init c t0 off OK) ST S) as (r & I). cbn [app] in I. exists r. split.
  - destruct (ri_r _ _ _ _ _ _ I) as [E|[(p & E)|E]]; [left; exact E| |right; right; exact E]. right. left. destruct p; [exact E|]. destruct (recv_from c _ _ _ _ S H _ E).
  - pose proof (ri_late _ _ _ _ _ _ I). pose proof (ri_chk _ _ _ _ _ _ I). lia.
Qed.
Print Assumptions C148_partial.

(** A report is not repeated too early: when silence is reported, nothing was received and no silence was reported for interval * max_absence - 1 seconds. *)
Theorem C148_rare : forall c t0 off l s tr a t b r, uc_ok c -> 0 < uwall off t0 -> usteady l -> usteps c (u0 c t0 off) l = Some (s, tr) -> tr = a ++ (t, VWarn) :: b -> any_known t0 a r ->
  (uc_int c * uc_max c - 1) * 1000 < t - r.
Proof.
  intros c t0 off l s tr a t b r OK W ST S E K. destruct (RI_steps c t0 off OK W _ _ _ _ _ _ (RI_init c t0 off OK) ST S) as (r0 & I). exact (ri_warn _ _ _ _ _ _ I a t b E r K).
Qed.
Print Assumptions C148_rare.

(** interval 5, max_absence 3: the peer says something once, is silent from then on and reported twice; the socket goes on sending heartbeats *)
Definition ex_u := mk_ucfg 5 3 20 3 true false.
Definition ex_ul : list (Z * uin) := [(12000, URecv true); (15010, UCheck); (15012, USent); (20012, UCheck); (20014, USent); (25020, UCheck); (25021, USent); (30030, UCheck); (30033, USent);
  (35040, UCheck); (35041, USent); (40050, UCheck); (40052, USent); (45051, UCheck); (45053, USent)].
Example C148_ex : exists s tr, usteps ex_u (u0 ex_u 10000 0) ex_ul = Some (s, tr) /\ uc_ok ex_u /\ 0 < uwall 0 10000 /\ usteady ex_ul /\ hears_peer_only ex_ul /\
  filter (fun x => match snd x with VWarn => true | _ => false end) tr = [(30030, VWarn); (45051, VWarn)] /\ In (45051, VBeat) tr /\
  exists a b, tr = a ++ (45051, VWarn) :: b /\ any_known 10000 a 30030.
Proof.
  do 2 eexists. split; [vm_compute; reflexivity|]. split; [unfold uc_ok; cbn; lia|]. split; [reflexivity|].
  split; [intros t z H; cbn in H; repeat destruct H as [H|H]; try discriminate; exact H|]. split; [intros t H; cbn in H; repeat destruct H as [H|H]; try discriminate; exact H|]. split; [reflexivity|]. split; [cbn; tauto|].
  exists (firstn 13 [(12000, VRecv true); (15010, VBeat); (15012, VSent true); (20012, VBeat); (20014, VSent true); (25020, VBeat); (25021, VSent true); (30030, VWarn); (30030, VBeat); (30033, VSent true); (35040, VBeat); (35041, VSent true); (40050, VBeat)] ++ [(40052, VSent true)]).
  eexists. split; [reflexivity|]. right. right. cbn. tauto.
Qed.

(** The same for every socket: *)
Definition C148_statement : Prop := forall c, silence_reported c.
(** False: without connect mode whatever arrives counts, from whomever. Here the peer is never heard of, but somebody else sends a datagram every
    four seconds, and the silence of the peer is not reported. *)
Definition stranger (n : nat) : list (Z * uin) :=
  flat_map (fun k => let t := 10000 + 5000 * Z.of_nat k in [(t + 4000, URecv false); (t + 5000, UCheck); (t + 5001, USent)]) (seq 0 n).
Theorem C148_refuted : exists c t0 l s tr, uc_ok c /\ uc_int c = 5 /\ uc_max c = 3 /\ uc_late c = 20 /\ usteady l /\ usteps c (u0 c t0 0) l = Some (s, tr) /\ 0 < uwall 0 t0 /\
  u_t s = t0 + 100001 /\ (forall r, ~ In (r, VRecv true) tr) /\ (forall r, ~ In (r, VWarn) tr) /\ In (t0 + 99000, VRecv false) tr.
Proof.
  exists (mk_ucfg 5 3 20 3 false false), 10000, (stranger 20). do 2 eexists. split; [unfold uc_ok; cbn; lia|]. split; [reflexivity|]. split; [reflexivity|]. split; [reflexivity|].
  split; [intros t z H; cbn in H; repeat destruct H as [H|H]; try discriminate; exact H|]. split; [vm_compute; reflexivity|]. split; [reflexivity|]. split; [reflexivity|].
  split; [intros r H; cbn in H; repeat destruct H as [H|H]; try discriminate; exact H|]. split; [intros r H; cbn in H; repeat destruct H as [H|H]; try discriminate; exact H|]. cbn. tauto.
Qed.
Print Assumptions C148_refuted.
Theorem C148_statement_refuted : ~ C148_statement.
Proof.
  intros H. destruct C148_refuted as (c & t0 & l & s & tr & OK & CI & CM & CL & ST & S & W & T & N1 & N2 & _).
  destruct (H c t0 0 l s tr OK W ST S) as (r & K & L). destruct K as [K|[K|K]]; [|exact (N1 _ K)|exact (N2 _ K)].
  rewrite T, K, CI, CM, CL in L. lia.
Qed.
Print Assumptions C148_statement_refuted.

(** ** sending *)
Definition ugap (c : ucfg) : Z := 2 * uc_int c * 1000 + uc_late c + uc_slow c.
Record SI (c : ucfg) (t0 off : Z) (s : ust) (tr : list (Z * uout)) (y : Z) : Prop := mk_SI {
  si_off : u_off s = off; si_t : t0 <= u_t s; si_recv : 0 < u_recv s;
  si_y : peer_told t0 tr y; si_yt : t0 <= y <= u_t s; si_send : u_send s = uwall off y \/ (y = t0 /\ u_send s = 0);
  si_due : u_due s <= u_t s + uc_int c * 1000;
  si_late : u_t s <= u_due s + uc_late c;
  si_idle : u_busy s = None -> u_due s <= y + 2 * uc_int c * 1000;
  si_busy : forall b d, u_busy s = Some (b, d) -> d = true /\ b <= y + 2 * uc_int c * 1000 + uc_late c;
  si_queue : Forall (fun d => d = true) (u_queue s);
  si_empty : u_busy s = None -> u_queue s = [];
  si_cover : forall x, t0 <= x <= u_t s -> exists z, peer_told t0 tr z /\ z <= x <= z + ugap c
}.
Lemma told_app t0 tr e r : peer_told t0 (tr ++ e) r <-> peer_told t0 tr r \/ In (r, VSent true) e.
Proof. unfold peer_told. rewrite in_app_iff. tauto. Qed.
Lemma SI_init c t0 off : uc_ok c -> 0 < uwall off t0 -> SI c t0 off (u0 c t0 off) [] t0.
Proof.
  intros (C1 & C2 & C3 & C4 & _) W. constructor; unfold u0; pj; try reflexivity; try lia; auto; try discriminate.
  - left. reflexivity.
  - intros x X. exists t0. unfold ugap. split; [left; reflexivity|lia].
Qed.
Lemma SI_step c t0 off s tr y x s' e : uc_ok c -> 0 < uwall off t0 -> SI c t0 off s tr y -> (forall z, snd x <> UAdjust z) -> uc_conn c = true \/ snd x <> USend false -> ustep c s x = Some (s', e) ->
  exists y', SI c t0 off s' (tr ++ e) y'.
Proof.
  intros (C1 & C2 & C3 & C4 & C5 & C6) W0 [A A1 A2 D1 D3 D4 E1 E3 F1 F2 Q1 Q2 G] NA NS S. destruct x as [t i]. cbn [ustep] in S.
  destruct (u_t s <=? t) eqn:T1; [|discriminate]. destruct (t <=? u_due s + uc_late c) eqn:T2; [|discriminate]. cbn [andb] in S. destruct (match u_busy s with Some (b, _) => t <=? b + uc_slow c | None => true end) eqn:T3; [|discriminate].
  assert (LT : t <= y + ugap c). { unfold ugap. destruct (u_busy s) as [[b d]|]; [specialize (F2 _ _ eq_refl)|specialize (F1 eq_refl)]; lia. }
  assert (CV : forall e1 x, t0 <= x <= t -> exists z, peer_told t0 (tr ++ e1) z /\ z <= x <= z + ugap c).
  { intros e1 x X. destruct (Z_le_gt_dec x (u_t s)) as [L|L]; [destruct (G x ltac:(lia)) as (z & Z1 & Z2); exists z; rewrite told_app; auto|]. exists y. rewrite told_app. split; [auto|lia]. }
  assert (YY : forall e1, peer_told t0 (tr ++ e1) y) by (intros; apply told_app; auto).
  assert (WP : 0 < uwall off t) by (pose proof (uwall_mono off t0 t ltac:(lia)); lia).
  (* a message for the peer is queued, perhaps together with a new due time *)
  assert (PUSH : forall s1 due e1, u_off s1 = off -> 0 < u_recv s1 -> u_send s1 = u_send s -> u_busy s1 = u_busy s -> u_queue s1 = u_queue s -> due <= t + uc_int c * 1000 -> t <= due + uc_late c ->
    SI c t0 off (mk_u t (u_off (push s1 t true)) (u_recv (push s1 t true)) (u_send (push s1 t true)) (u_busy (push s1 t true)) (u_queue (push s1 t true)) due) (tr ++ e1) y).
  { intros s1 due e1 H1 H2 H3 H4 H5 H6 H7. unfold push. rewrite H4. destruct (u_busy s) as [[b d]|] eqn:BU; constructor; pj; rewrite ?H1, ?H3, ?H5; try assumption; try lia; try discriminate; auto.
    - apply Forall_app. split; [exact Q1|]. constructor; [reflexivity|constructor].
    - intros b d B. injection B as <- <-. split; [reflexivity|]. specialize (F1 eq_refl). lia. }
  destruct i as [p|p| | | |z].
  - destruct (uc_conn c && negb p); [discriminate|]. injection S as <- <-. exists y. constructor; pj; try assumption; try lia; auto. rewrite A. exact WP.
  - injection S as <- <-. exists y. assert (D : uc_conn c || p = true) by (destruct NS as [-> |NS]; [reflexivity|]; destruct p; [apply orb_true_r|destruct (NS eq_refl)]). rewrite D.
    pose proof (PUSH s (u_due s) [] A A2 eq_refl eq_refl eq_refl ltac:(lia) ltac:(lia)) as P. unfold push in *. destruct (u_busy s); exact P.
  - destruct (u_busy s) as [[b d]|] eqn:BU; [|discriminate]. injection S as <- <-. destruct (F2 _ _ eq_refl) as (-> & F3). exists t. destruct (u_queue s) as [|d' q] eqn:QU; constructor; pj; try assumption; try lia; try discriminate; auto.
    + apply told_app. right. left. reflexivity.
    + left. rewrite A. reflexivity.
    + apply told_app. right. left. reflexivity.
    + left. rewrite A. reflexivity.
    + intros b' d B. injection B as <- <-. inversion Q1; subst. split; [reflexivity|lia].
    + inversion Q1; assumption.
  - destruct (u_due s <=? t) eqn:T4; [|discriminate]. injection S as S. unfold ucheck in S. replace (0 <? u_recv s) with true in S by lia. rewrite A in S.
    assert (PU : forall s1 e1, u_off s1 = off -> 0 < u_recv s1 -> u_send s1 = u_send s -> u_busy s1 = u_busy s -> u_queue s1 = u_queue s ->
      (if uc_always c || ((uc_int c <=? uwall off t - u_send s1) && negb (is_sending s1)) then (mk_u t (u_off (push s1 t true)) (u_recv (push s1 t true)) (u_send (push s1 t true)) (u_busy (push s1 t true)) (u_queue (push s1 t true)) (t + uc_int c * 1000), e1 ++ [(t, VBeat)])
       else (mk_u t (u_off s1) (u_recv s1) (u_send s1) (u_busy s1) (u_queue s1) (t + uc_int c * 1000), e1)) = (s', e) -> SI c t0 off s' (tr ++ e) y).
    { intros s1 e1 H1 H2 H3 H4 H5 H. clear S. destruct (uc_always c || ((uc_int c <=? uwall off t - u_send s1) && negb (is_sending s1))) eqn:AL; injection H as <- <-.
      - apply PUSH; auto; lia.
      - apply orb_false_iff in AL. destruct AL as (_ & AL). unfold is_sending in AL. rewrite H4, H3 in AL. constructor; pj; rewrite ?H1, ?H3, ?H4, ?H5; try assumption; try lia; auto.
        intros B. rewrite B in AL. cbn in AL. rewrite andb_true_r in AL. assert (t - y < uc_int c * 1000); [|lia]. destruct D4 as [D4|(D4 & D5)]; [apply (uwall_lt off); lia|]. apply (uwall_lt off). subst y. lia. }
    exists y. destruct (uc_int c * uc_max c <=? uwall off t - u_recv s); [exact (PU (mk_u t off (uwall off t) (u_send s) (u_busy s) (u_queue s) (u_due s)) [(t, VWarn)] eq_refl WP eq_refl eq_refl eq_refl S)|exact (PU s [] A A2 eq_refl eq_refl eq_refl S)].
  - injection S as <- <-. exists y. constructor; pj; try assumption; try lia; auto.
  - destruct (NA z eq_refl).
Qed.
Lemma SI_steps c t0 off : uc_ok c -> 0 < uwall off t0 -> forall l s tr y s' tr', SI c t0 off s tr y -> usteady l -> uc_conn c = true \/ tells_peer_only l -> usteps c s l = Some (s', tr') -> exists y', SI c t0 off s' (tr ++ tr') y'.
Proof.
  intros OK W. induction l as [|x l IH]; intros s tr y s' tr' I ST NS S; cbn [usteps] in S; [injection S as <- <-; exists y; rewrite app_nil_r; exact I|].
  destruct (ustep c s x) as [[s1 t1]|] eqn:E; [|discriminate]. destruct (usteps c s1 l) as [[s2 t2]|] eqn:E2; [|discriminate]. injection S as <- <-.
  destruct (SI_step c t0 off s tr y x s1 t1 OK W I) as (y1 & I1); [intros z Z; apply (ST (fst x) z); left; rewrite <- Z; destruct x; reflexivity| |exact E|].
  - destruct NS as [NS|NS]; [auto|]. right. intros Z. apply (NS (fst x)). left. rewrite <- Z. destruct x. reflexivity.
  - rewrite app_assoc. apply (IH _ _ _ _ _ I1); [| |exact E2]; [intros t z Q; exact (ST t z (or_intror Q))|]. destruct NS as [NS|NS]; [auto|]. right. intros t Q. exact (NS t (or_intror Q)).
Qed.
(** With connect mode, or if the application sends to the peer only, the peer is sent something at least every two intervals, silent or not. *)
Theorem C149_partial : forall c t0 off l s tr x, uc_conn c = true \/ tells_peer_only l -> uc_ok c -> 0 < uwall off t0 -> usteady l -> usteps c (u0 c t0 off) l = Some (s, tr) -> t0 <= x <= u_t s ->
  exists y, peer_told t0 tr y /\ y <= x <= y + (2 * uc_int c * 1000 + uc_late c + uc_slow c).
Proof.
  intros c t0 off l s tr x NS OK W ST S X. destruct (SI_steps c t0 off OK W _ _ _ _ _ _ (SI_init c t0 off OK W) ST NS S) as (y & I). exact (si_cover _ _ _ _ _ _ I x X).
Qed.
Print Assumptions C149_partial.

Definition C149_statement : Prop := forall c, peer_served c.
(** False: what the application sends to others counts. Here it sends somebody else a message every four seconds, and the peer gets nothing at all. *)
Definition others (n : nat) : list (Z * uin) :=
  flat_map (fun k => let t := 10000 + 5000 * Z.of_nat k in [(t + 1000, URecv true); (t + 4000, USend false); (t + 4001, USent); (t + 5000, UCheck)]) (seq 0 n).
Theorem C149_refuted : exists c t0 l s tr, uc_ok c /\ uc_int c = 5 /\ uc_max c = 3 /\ uc_late c = 20 /\ uc_slow c = 3 /\ usteady l /\ usteps c (u0 c t0 0) l = Some (s, tr) /\ 0 < uwall 0 t0 /\
  u_t s = t0 + 100000 /\ (forall r, ~ In (r, VSent true) tr) /\ (forall r, ~ In (r, VBeat) tr).
Proof.
  exists (mk_ucfg 5 3 20 3 false false), 10000, (others 20). do 2 eexists. split; [unfold uc_ok; cbn; lia|]. split; [reflexivity|]. split; [reflexivity|]. split; [reflexivity|]. split; [reflexivity|].
  split; [intros t z H; cbn in H; repeat destruct H as [H|H]; try discriminate; exact H|]. split; [vm_compute; reflexivity|]. split; [reflexivity|]. split; [reflexivity|].
  split; intros r H; cbn in H; repeat destruct H as [H|H]; try discriminate; exact H.
Qed.
Print Assumptions C149_refuted.
Theorem C149_statement_refuted : ~ C149_statement.
Proof.
  intros H. destruct C149_refuted as (c & t0 & l & s & tr & OK & CI & CM & CL & CS & ST & S & W & T & N1 & N2).
  destruct (H c t0 0 l s tr (u_t s) OK W ST S) as (y & [K|K] & L); [rewrite T; lia| |exact (N1 _ K)]. rewrite T, K, CI, CL, CS in L. lia.
Qed.
Print Assumptions C149_statement_refuted.

(** With ST_ASIO_ALWAYS_SEND_HEARTBEAT a heartbeat for the peer is queued every interval, whatever else is sent. *)
Definition AI (c : ucfg) (t0 : Z) (s : ust) (tr : list (Z * uout)) : Prop :=
  t0 <= u_t s /\ u_t s <= u_due s + uc_late c /\ (u_due s - uc_int c * 1000 = t0 \/ In (u_due s - uc_int c * 1000, VBeat) tr) /\ u_due s - uc_int c * 1000 <= u_t s /\
  forall x, t0 <= x <= u_t s -> exists b, (b = t0 \/ In (b, VBeat) tr) /\ b <= x <= b + (uc_int c * 1000 + uc_late c).
Theorem C149_always : forall c t0 off l s tr x, uc_always c = true -> uc_ok c -> 0 < uwall off t0 -> usteady l -> usteps c (u0 c t0 off) l = Some (s, tr) -> t0 <= x <= u_t s ->
  exists b, (b = t0 \/ In (b, VBeat) tr) /\ b <= x <= b + (uc_int c * 1000 + uc_late c).
Proof.
  intros c t0 off l s tr x AL OK W ST S X.
  assert (Z : forall l s tr r s' tr', RI c t0 off s tr r -> AI c t0 s tr -> usteady l -> usteps c s l = Some (s', tr') -> AI c t0 s' (tr ++ tr')).
  { clear - AL OK W. induction l as [|x l IH]; intros s tr r s' tr' R I ST S; cbn [usteps] in S; [injection S as <- <-; rewrite app_nil_r; exact I|].
    destruct (ustep c s x) as [[s1 t1]|] eqn:E; [|discriminate]. destruct (usteps c s1 l) as [[s2 t2]|] eqn:E2; [|discriminate]. injection S as <- <-.
    assert (NA : forall z, snd x <> UAdjust z) by (intros z Z; apply (ST (fst x) z); left; rewrite <- Z; destruct x; reflexivity).
    destruct (RI_step c t0 off s tr r x s1 t1 OK W R NA E) as (LE & r1 & R1). rewrite app_assoc. apply (IH _ _ _ _ _ R1); [|intros t z Q; exact (ST t z (or_intror Q))|exact E2]. clear IH E2.
    destruct OK as (C1 & C2 & C3 & C4 & C5 & C6). destruct I as (A1 & A2 & A3 & A4 & A5).
    assert (P : 0 < u_recv s) by (rewrite (ri_recv _ _ _ _ _ _ R); pose proof (uwall_mono off t0 r (proj1 (ri_rt _ _ _ _ _ _ R))); lia).
    assert (OLD : forall e, In (u_due s - uc_int c * 1000, VBeat) tr -> In (u_due s - uc_int c * 1000, VBeat) (tr ++ e)) by (intros; apply in_or_app; auto).
    assert (CV : forall e u, u <= u_due s + uc_late c -> forall y, t0 <= y <= u -> exists b, (b = t0 \/ In (b, VBeat) (tr ++ e)) /\ b <= y <= b + (uc_int c * 1000 + uc_late c)).
    { intros e u U y Y. destruct (Z_le_gt_dec y (u_t s)) as [L|L].
      - destruct (A5 y ltac:(lia)) as (b & [B|B] & B2); exists b; (split; [|exact B2]); [auto|]. right. apply in_or_app. auto.
      - exists (u_due s - uc_int c * 1000). split; [destruct A3; auto|lia]. }
    destruct x as [t i]. cbn [ustep] in E. destruct (u_t s <=? t) eqn:T1; [|discriminate]. destruct (t <=? u_due s + uc_late c) eqn:T2; [|discriminate]. cbn [andb] in E. destruct (match u_busy s with Some (b, _) => t <=? b + uc_slow c | None => true end); [|discriminate].
    assert (SAME : u_t s1 = t -> u_due s1 = u_due s -> AI c t0 s1 (tr ++ t1)).
    { intros H1 H2. unfold AI. rewrite H1, H2. split; [lia|]. split; [lia|]. split; [destruct A3; auto|]. split; [lia|]. apply CV. lia. }
    destruct i as [p|p| | | |z].
    - destruct (uc_conn c && negb p); [discriminate|]. injection E as <- <-. apply SAME; reflexivity.
    - injection E as <- <-. destruct (push_fields s t (uc_conn c || p)) as (F1 & _ & _ & _ & F4). apply SAME; assumption.
    - destruct (u_busy s) as [[b d]|]; [|discriminate]. injection E as <- <-. apply SAME; destruct (u_queue s); reflexivity.
    - destruct (u_due s <=? t) eqn:T4; [|discriminate]. injection E as E. unfold ucheck in E. replace (0 <? u_recv s) with true in E by lia. rewrite AL in E. cbn [orb] in E. injection E as <- <-. unfold AI. pj.
      replace (t + uc_int c * 1000 - uc_int c * 1000) with t by lia. split; [lia|]. split; [lia|]. split; [right; apply in_or_app; right; apply in_or_app; right; left; reflexivity|]. split; [lia|]. apply CV. lia.
    - injection E as <- <-. apply SAME; reflexivity.
    - destruct (NA z eq_refl). }
  assert (I0 : AI c t0 (u0 c t0 off) []).
  { destruct OK as (C1 & C2 & C3 & C4 & _). unfold AI, u0. pj. split; [lia|]. split; [lia|]. split; [left; lia|]. split; [lia|]. intros y Y. exists t0. split; [auto|lia]. }
  exact (proj2 (proj2 (proj2 (proj2 (Z l _ _ _ _ _ (RI_init c t0 off OK) I0 ST S)))) x X).
Qed.
Print Assumptions C149_always.
Example C149_ex : exists s tr, usteps (mk_ucfg 5 3 20 3 false true) (u0 (mk_ucfg 5 3 20 3 false true) 10000 0) [(14999, USend false); (15000, UCheck); (15001, USent); (15002, USent); (20000, UCheck)] = Some (s, tr) /\
  tr = [(15000, VBeat); (15001, VSent false); (15002, VSent true); (20000, VBeat)].
Proof. do 2 eexists. split; [vm_compute; reflexivity|reflexivity]. Qed.
(** a heartbeat after the application was silent, none after it sent something *)
Example C149_partial_ex : exists s tr, usteps ex_u (u0 ex_u 10000 0) [(15010, UCheck); (15012, USent); (19000, USend true); (19001, USent); (20012, UCheck); (24000, URecv true); (25013, UCheck)] = Some (s, tr) /\
  tr = [(15010, VBeat); (15012, VSent true); (19001, VSent true); (24000, VRecv true); (25013, VBeat)].
Proof. do 2 eexists. split; [vm_compute; reflexivity|reflexivity]. Qed.
