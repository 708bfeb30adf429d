(** C148: time goes on for an open UDP socket; a peer that falls silent is in fact reported, again and again. *)
From Coq Require Import List ZArith Bool Lia ZifyBool.
From Verif Require Import M_UdpHeart S_UdpHeart P_UdpHeart.
Import ListNotations.
Open Scope Z_scope.

(** what the socket does by itself. Nobody sends or sets the clock, nothing arrives. *)
Definition ualone (l : list (Z * uin)) : Prop := forall x, In x l -> snd x = UCheck \/ snd x = USent \/ snd x = UTick.

Record UT (c : ucfg) (s : ust) : Prop := mk_UT {
  ut_due : u_t s <= u_due s + uc_late c; ut_next : u_due s <= u_t s + uc_int c * 1000;
  ut_busy : forall b d, u_busy s = Some (b, d) -> u_t s <= b + uc_slow c;
  ut_queue : u_busy s = None -> u_queue s = []
}.
Lemma usteps_app c l1 : forall s l2, usteps c s (l1 ++ l2) = match usteps c s l1 with None => None | Some (s1, t1) => match usteps c s1 l2 with None => None | Some (s2, t2) => Some (s2, t1 ++ t2) end end.
Proof.
  induction l1 as [|x l1 IH]; intros s l2; cbn [app usteps]; [destruct (usteps c s l2) as [[]|]; reflexivity|]. destruct (ustep c s x) as [[s1 t1]|]; [|reflexivity]. rewrite IH. destruct (usteps c s1 l1) as [[s2 t2]|]; [|reflexivity]. destruct (usteps c s2 l2) as [[s3 t3]|]; [|reflexivity]. rewrite app_assoc. reflexivity.
Qed.
Lemma push_busy s t d : match u_busy s with Some b => u_busy (push s t d) = Some b | None => u_busy (push s t d) = Some (t, d) end.
Proof. unfold push. destruct (u_busy s); reflexivity. Qed.
Lemma UT_push c s t d : uc_ok c -> u_t s <= t -> t <= u_due s + uc_late c -> u_due s <= t + uc_int c * 1000 -> (forall b e, u_busy s = Some (b, e) -> t <= b + uc_slow c) -> UT c (push s t d).
Proof.
  intros (C1 & C2 & C3 & C4 & _) A B D E. destruct (push_fields s t d) as (F1 & F2 & F3 & F4 & F5). pose proof (push_busy s t d) as P. constructor; rewrite ?F1, ?F5; try lia.
  - intros b e Q. destruct (u_busy s) as [[b0 e0]|] eqn:BU; rewrite P in Q; inversion Q; subst; [exact (E _ _ eq_refl)|lia].
  - intros Q. destruct (u_busy s) as [[b0 e0]|]; rewrite P in Q; discriminate Q.
Qed.
Lemma UT_again c s t : uc_ok c -> UT c s -> u_t s = t -> UT c (mk_u t (u_off s) (u_recv s) (u_send s) (u_busy s) (u_queue s) (t + uc_int c * 1000)).
Proof. intros (C1 & C2 & C3 & C4 & _) [A B D E] T. constructor; cbn [u_t u_due u_busy u_queue]; try lia; [rewrite <- T; exact D|exact E]. Qed.
Lemma ucheck_UT c s t : uc_ok c -> UT c s -> u_t s <= t -> t <= u_due s + uc_late c -> u_due s <= t -> (forall b e, u_busy s = Some (b, e) -> t <= b + uc_slow c) -> UT c (fst (ucheck c s t)) /\ u_t (fst (ucheck c s t)) = t /\ u_due (fst (ucheck c s t)) = t + uc_int c * 1000 /\ (forall q p, ~ In (q, VRecv p) (snd (ucheck c s t))).
Proof.
  intros OK I T1 T2 T4 B. pose proof OK as (C1 & C2 & C3 & C4 & _). destruct I as [I1 I2 I3 I4].
  unfold ucheck. destruct (0 <? u_recv s).
  2: { cbn [fst snd]. split; [|split; [reflexivity|split; [reflexivity|intros q p []]]]. constructor; cbn [u_t u_due u_busy u_queue]; try lia; auto. }
  set (w := uc_int c * uc_max c <=? uwall (u_off s) t - u_recv s).
  assert (X : forall s1, u_busy s1 = u_busy s -> u_queue s1 = u_queue s -> u_due s1 = u_due s -> u_t s1 <= t ->
    let r := if uc_always c || ((uc_int c <=? uwall (u_off s) t - u_send s1) && negb (is_sending s1)) then (let s2 := push s1 t true in mk_u t (u_off s2) (u_recv s2) (u_send s2) (u_busy s2) (u_queue s2) (t + uc_int c * 1000), (if w then [(t, VWarn)] else []) ++ [(t, VBeat)]) else (mk_u t (u_off s1) (u_recv s1) (u_send s1) (u_busy s1) (u_queue s1) (t + uc_int c * 1000), if w then [(t, VWarn)] else []) in
    UT c (fst r) /\ u_t (fst r) = t /\ u_due (fst r) = t + uc_int c * 1000 /\ (forall q p, ~ In (q, VRecv p) (snd r))).
  { intros s1 E1 E2 E3 E4. destruct (uc_always c || _); cbn [fst snd].
    - split; [apply UT_again; [exact OK|apply UT_push; try assumption; try lia; rewrite E1; exact B|apply push_fields]|]. split; [reflexivity|]. split; [reflexivity|]. intros q p Q. apply in_app_or in Q as [Q|[Q|[]]]; [destruct w; [destruct Q as [Q|[]]; discriminate Q|destruct Q]|discriminate Q].
    - split; [constructor; cbn [u_t u_due u_busy u_queue]; try lia; [rewrite E1; exact B|rewrite E1, E2; exact I4]|]. split; [reflexivity|]. split; [reflexivity|]. intros q p Q. destruct w; [destruct Q as [Q|[]]; discriminate Q|destruct Q]. }
  destruct w; [apply (X (mk_u t (u_off s) (uwall (u_off s) t) (u_send s) (u_busy s) (u_queue s) (u_due s))); cbn; try reflexivity; lia|apply (X s); auto].
Qed.
Lemma UT_step c s x s' tr : uc_ok c -> UT c s -> ustep c s x = Some (s', tr) -> UT c s'.
Proof.
  intros OK I S. destruct x as [t e]. cbn [ustep] in S. destruct (u_t s <=? t) eqn:T1; [|discriminate S]. destruct (t <=? u_due s + uc_late c) eqn:T2; [|discriminate S]. cbn [andb] in S. destruct (match u_busy s with Some (b, _) => t <=? b + uc_slow c | None => true end) eqn:T3; [|discriminate S].
  assert (B : forall b d, u_busy s = Some (b, d) -> t <= b + uc_slow c) by (intros b d Q; rewrite Q in T3; lia). pose proof OK as (C1 & C2 & C3 & C4 & _). pose proof I as [I1 I2 I3 I4].
  destruct e; try (inversion S; subst; clear S; constructor; cbn [u_t u_due u_busy u_queue]; [lia|lia|exact B|exact I4]).
  - destruct (uc_conn c && negb peer); [discriminate S|]. inversion S; subst; clear S; constructor; cbn [u_t u_due u_busy u_queue]; [lia|lia|exact B|exact I4].
  - inversion S; subst; clear S. apply UT_push; try assumption; lia.
  - destruct (u_busy s) as [[b d]|] eqn:BU; [|discriminate S]. inversion S; subst; clear S. destruct (u_queue s); constructor; cbn [u_t u_due u_busy u_queue]; try lia; try discriminate; try reflexivity. intros b1 d1 Q. inversion Q; subst. lia.
  - destruct (u_due s <=? t) eqn:T4; [|discriminate S]. injection S as S. destruct (ucheck_UT c s t OK I) as (U & _); try lia; [exact B|]. rewrite S in U. exact U.
Qed.
Lemma UT_steps c l : forall s s' tr, uc_ok c -> UT c s -> usteps c s l = Some (s', tr) -> UT c s'.
Proof.
  induction l as [|x l IH]; intros s s' tr OK I S; cbn [usteps] in S; [inversion S; subst; exact I|]. destruct (ustep c s x) as [[s1 t1]|] eqn:E; [|discriminate S]. destruct (usteps c s1 l) as [[s2 t2]|] eqn:E2; [|discriminate S]. inversion S; subst. exact (IH _ _ _ OK (UT_step _ _ _ _ _ OK I E) E2).
Qed.
Lemma UT_init c t0 off : uc_ok c -> UT c (u0 c t0 off).
Proof. intros (C1 & C2 & C3 & C4 & _). constructor; cbn; try lia; [discriminate|reflexivity]. Qed.
Lemma ualone_app l l' : ualone l -> ualone l' -> ualone (l ++ l').
Proof. intros A B x H. apply in_app_or in H as [H|H]; auto. Qed.

(** everything queued is sent *)
Lemma uflush c n : forall s, uc_ok c -> UT c s -> (length (u_queue s) <= n)%nat -> exists l s' tr, usteps c s l = Some (s', tr) /\ ualone l /\ u_busy s' = None /\ u_t s' = u_t s /\ u_due s' = u_due s.
Proof.
  induction n as [|n IH]; intros s OK I L; (destruct (u_busy s) as [[b d]|] eqn:BU; [|exists [], s, []; repeat apply conj; try reflexivity; try assumption; intros x []]).
  all: pose proof (ut_busy _ _ I _ _ BU) as BB; pose proof (ut_due _ _ I) as DD.
  all: assert (S1 : exists s1 t1, ustep c s (u_t s, USent) = Some (s1, t1) /\ u_t s1 = u_t s /\ u_due s1 = u_due s /\ (u_queue s = [] -> u_busy s1 = None) /\ (u_queue s1 = tl (u_queue s))) by (cbn [ustep]; rewrite BU; replace (u_t s <=? u_t s) with true by lia; replace (u_t s <=? u_due s + uc_late c) with true by lia; replace (u_t s <=? b + uc_slow c) with true by lia; cbn [andb]; do 2 eexists; split; [reflexivity|]; destruct (u_queue s); cbn; repeat apply conj; try reflexivity; intros Q; discriminate Q).
  all: destruct S1 as (s1 & t1 & S1 & A1 & A2 & A3 & A4).
  - destruct (u_queue s); [|cbn in L; lia]. exists [(u_t s, USent)], s1, (t1 ++ []). split; [cbn [usteps]; rewrite S1; reflexivity|]. split; [intros x [<-|[]]; cbn; tauto|]. auto.
  - destruct (IH s1 OK (UT_step _ _ _ _ _ OK I S1)) as (l & s2 & t2 & S2 & B1 & B2 & B3 & B4); [rewrite A4; destruct (u_queue s); cbn in *; lia|]. exists ((u_t s, USent) :: l), s2, (t1 ++ t2). split; [cbn [usteps]; rewrite S1, S2; reflexivity|]. split; [intros x [<-|Q]; [cbn; tauto|exact (B1 _ Q)]|]. rewrite B3, B4. auto.
Qed.
Lemma utour c s : uc_ok c -> UT c s -> exists l s' tr, usteps c s l = Some (s', tr) /\ ualone l /\ UT c s' /\ u_due s + uc_int c * 1000 <= u_due s'.
Proof.
  intros OK I. destruct (uflush c _ s OK I (le_n _)) as (l1 & s1 & t1 & S1 & A1 & B1 & T1 & D1). pose proof (UT_steps _ _ _ _ _ OK I S1) as I1. set (t := Z.max (u_t s1) (u_due s1)). pose proof (ut_due _ _ I1) as DD. pose proof OK as (C1 & C2 & C3 & C4 & _).
  assert (S2 : ustep c s1 (t, UCheck) = Some (ucheck c s1 t)) by (cbn [ustep]; rewrite B1; replace (u_t s1 <=? t) with true by lia; replace (t <=? u_due s1 + uc_late c) with true by lia; cbn [andb]; replace (u_due s1 <=? t) with true by lia; reflexivity).
  destruct (ucheck_UT c s1 t OK I1) as (U & U2 & U3 & _); try lia; [intros b e Q; rewrite B1 in Q; discriminate Q|]. destruct (ucheck c s1 t) as [s2 t2]. cbn [fst] in *. exists (l1 ++ [(t, UCheck)]), s2, (t1 ++ (t2 ++ [])). split; [rewrite usteps_app, S1; cbn [usteps]; rewrite S2; reflexivity|]. split; [apply ualone_app; [exact A1|]; intros x [<-|[]]; cbn; tauto|]. split; [exact U|lia].
Qed.
Lemma utours c n : forall s, uc_ok c -> UT c s -> exists l s' tr, usteps c s l = Some (s', tr) /\ ualone l /\ UT c s' /\ u_due s + Z.of_nat n * (uc_int c * 1000) <= u_due s'.
Proof.
  induction n as [|n IH]; intros s OK I; [exists [], s, []; split; [reflexivity|]; split; [intros x []|]; split; [exact I|lia]|].
  destruct (utour c s OK I) as (l1 & s1 & t1 & S1 & A1 & I1 & G1). destruct (IH s1 OK I1) as (l2 & s2 & t2 & S2 & A2 & I2 & G4). exists (l1 ++ l2), s2, (t1 ++ t2). split; [rewrite usteps_app, S1, S2; reflexivity|]. split; [apply ualone_app; assumption|]. split; [exact I2|]. lia.
Qed.

(** Whatever happened so far, also with the clock being set: the socket can go on by itself as long as one likes. *)
Theorem C148_goes_on c t0 off l s tr T : uc_ok c -> usteps c (u0 c t0 off) l = Some (s, tr) -> exists l' s' tr', usteps c s l' = Some (s', tr') /\ ualone l' /\ T <= u_t s'.
Proof.
  intros OK S. pose proof (UT_steps _ _ _ _ _ OK (UT_init c t0 off OK) S) as I. destruct (utours c (Z.to_nat (Z.max 0 (T - u_due s) + 1)) s OK I) as (l' & s' & tr' & S' & A & I' & G). exists l', s', tr'. split; [exact S'|]. split; [exact A|]. pose proof (ut_next _ _ I') as N. destruct OK as (C1 & _). rewrite Z2Nat.id in G by lia. nia.
Qed.
Print Assumptions C148_goes_on.

Lemma ualone_quiet c l : forall s s' tr, uc_ok c -> UT c s -> ualone l -> usteps c s l = Some (s', tr) -> forall q p, ~ In (q, VRecv p) tr.
Proof.
  induction l as [|[t e] l IH]; intros s s' tr OK I A S q p Q; cbn [usteps] in S; [inversion S; subst; exact Q|]. destruct (ustep c s (t, e)) as [[s1 t1]|] eqn:E; [|discriminate S]. destruct (usteps c s1 l) as [[s2 t2]|] eqn:E2; [|discriminate S]. inversion S; subst.
  pose proof (UT_step _ _ _ _ _ OK I E) as I1. apply in_app_or in Q as [Q|Q]; [|exact (IH _ _ _ OK I1 (fun x H => A x (or_intror H)) E2 _ _ Q)]. specialize (A _ (or_introl eq_refl)). cbn [snd] in A. cbn [ustep] in E. destruct (u_t s <=? t) eqn:T1; [|discriminate E]. destruct (t <=? u_due s + uc_late c) eqn:T2; [|discriminate E]. cbn [andb] in E. destruct (match u_busy s with Some (b, _) => t <=? b + uc_slow c | None => true end) eqn:T3; [|discriminate E].
  assert (B : forall b d, u_busy s = Some (b, d) -> t <= b + uc_slow c) by (intros b d Z; rewrite Z in T3; lia). destruct A as [ -> | [ -> | -> ]].
  - destruct (u_due s <=? t) eqn:T4; [|discriminate E]. injection E as E. destruct (ucheck_UT c s t OK I) as (_ & _ & _ & U); try lia; [exact B|]. rewrite E in U. exact (U _ _ Q).
  - destruct (u_busy s) as [[b d]|]; [|discriminate E]. inversion E; subst. destruct Q as [Q|[]]. discriminate Q.
  - inversion E; subst. exact Q.
Qed.

(** With a steady clock a silence in which nobody else sends either is reported (in the time of C148_partial); also without connect mode, and not only once:
    [l] may contain reports. *)
Theorem C148_reports c t0 off l s tr : uc_ok c -> 0 < uwall off t0 -> usteady l -> usteps c (u0 c t0 off) l = Some (s, tr) ->
  exists l' s' tr' t, usteps c s l' = Some (s', tr') /\ ualone l' /\ In (t, VWarn) tr'.
Proof.
  intros OK W ST S. pose proof (UT_steps _ _ _ _ _ OK (UT_init c t0 off OK) S) as I. destruct (C148_goes_on c t0 off l s tr (u_t s + uc_int c * (uc_max c + 1) * 1000 + uc_late c) OK S) as (l' & s' & tr' & S' & A & G).
  assert (SS : usteps c (u0 c t0 off) (l ++ l') = Some (s', tr ++ tr')) by (rewrite usteps_app, S, S'; reflexivity).
  assert (ST' : usteady (l ++ l')). { intros t z H. apply in_app_or in H as [H|H]; [exact (ST _ _ H)|]. destruct (A _ H) as [Q|[Q|Q]]; discriminate Q. }
  destruct (RI_steps c t0 off OK W _ _ _ _ _ _ (RI_init c t0 off OK) ST S) as (r1 & I1). destruct (RI_steps c t0 off OK W _ _ _ _ _ _ (RI_init c t0 off OK) ST' SS) as (r2 & I2). cbn [app] in I1, I2.
  assert (L : u_t s' - r2 < uc_int c * (uc_max c + 1) * 1000 + uc_late c) by (pose proof (ri_late _ _ _ _ _ _ I2); pose proof (ri_chk _ _ _ _ _ _ I2); lia).
  destruct (proj1 (any_app _ _ _ _) (ri_r _ _ _ _ _ _ I2)) as [H|[(p & H)|H]].
  - pose proof (ri_rm _ _ _ _ _ _ I1 _ H). pose proof (ri_rt _ _ _ _ _ _ I1). lia.
  - destruct (ualone_quiet _ _ _ _ _ OK I A S' _ _ H).
  - exists l', s', tr', r2. auto.
Qed.
Print Assumptions C148_reports.
(** a socket that is writing, with two more datagrams queued, when its timer expires *)
Example C148_reports_ex : exists s tr, uc_ok ex_u /\ 0 < uwall 0 10000 /\ usteps ex_u (u0 ex_u 10000 0) [(15000, USend true); (15001, USend true); (15001, USend true); (15002, UCheck)] = Some (s, tr) /\ length (u_queue s) = 2%nat /\
  exists s' tr', usteps ex_u s [(15002, USent); (15002, USent); (15002, USent); (20002, UCheck); (20002, USent); (25002, UCheck)] = Some (s', tr') /\ In (25002, VWarn) tr'.
Proof. do 2 eexists. split; [unfold uc_ok; cbn; lia|]. split; [reflexivity|]. split; [vm_compute; reflexivity|]. split; [reflexivity|]. do 2 eexists. split; [vm_compute; reflexivity|]. cbn. tauto. Qed.
