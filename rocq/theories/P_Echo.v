From Coq Require Import List NArith Bool Arith Lia ZifyBool ZifyNat ZifyN.
From Verif Require Import M_Bytes M_Queue M_Send M_Echo S_Queue S_Send S_Echo.
From Verif Require M_Handle S_Handle P_Handle L_Queue L_Send P_Send.
Import ListNotations.
Import M_Handle (HRecv, HOn, HMove, HTest, HPost, HRun, HMark, HTake, HRet, HSet, HClear, HRepost, HFire, DIdle, DTaken, DIn, DSet, DClear, DRepost, IIdle, IOn, IMove, ITest, IPost, ERead, EPad, EOn, EOffer, EHandled, h_d, h_i, h_held, h_buf, h_posted, h_timer, h_disp, handle0, hst).
Import S_Handle (received, handled, pending, waiting, library).

(** ** C156: an echo server sends every message back, once and in order *)
Definition mild (o : option frame) : Prop := match o with None | Some FReady | Some FLoad => True | _ => False end.
Definition calmf (f : frame) : Prop := match f with FCheck _ _ _ | FEnq _ _ => False | _ => True end.
Definition coupled (c : ecfg) (h : hst) (k : cb) (t0 : option frame) (t : list M_Handle.ev) (b : list label) : Prop :=
  match k with
  | COut => t0 = None /\ queued b = echo_of c (handled t)
  | CSend todo ok => h_d h = DIn /\
      if ec_batch c then
        match t0 with
        | Some (FCheck it p o) => p = false /\ o = true /\ queued b ++ it ++ echo_of c todo = echo_of c (handled t)
        | Some (FEnq it p) => p = false /\ queued b ++ it ++ echo_of c todo = echo_of c (handled t)
        | _ => mild t0 /\ queued b ++ echo_of c todo = echo_of c (handled t)
        end
      else todo = [] /\ exists m, h_held h = Some m /\
        match t0 with
        | Some (FCheck it p _) | Some (FEnq it p) => p = false /\ it = pk c m /\ ok = false /\ queued b = echo_of c (handled t)
        | None => queued b = echo_of c (handled t ++ if ok then [m] else [])
        | _ => mild t0 /\ ok = true /\ queued b = echo_of c (handled t ++ [m])
        end
  end.
Record J (c : ecfg) (s : est) (t : list M_Handle.ev) (b : list label) : Prop := {
  j_np : no_prior b;
  j_st : Forall calmf (strand (e_s s));
  j_in : forall ms, h_i (e_h s) <> IOn ms;
  j_th : exists t0 t1, threads (e_s s) = [t0; t1] /\ mild t1 /\ coupled c (e_h s) (e_c s) t0 t b }.
Record R (c : ecfg) (s : est) (t : list M_Handle.ev) (b : list label) : Prop := {
  r_h : exists l, M_Handle.run (hcfg c) handle0 l = Some (e_h s, t);
  r_s : exists l, acts (ec_send c) (send_init 2) l = Some (b, e_s s);
  r_j : J c s t b }.

Lemma handled_app : forall a b, handled (a ++ b) = handled a ++ handled b.
Proof. induction a as [|e a IH]; intro b; [reflexivity|]. cbn [app]. destruct e; cbn; rewrite IH, ?app_assoc; reflexivity. Qed.
Lemma received_app : forall a b, received (a ++ b) = received a ++ received b.
Proof. induction a as [|e a IH]; intro b; [reflexivity|]. cbn [app]. destruct e; cbn; rewrite IH, ?app_assoc; reflexivity. Qed.
Lemma echo_app : forall c a b, echo_of c (a ++ b) = echo_of c a ++ echo_of c b.
Proof. intros. apply flat_map_app. Qed.
Lemma hrun_snoc : forall c l s a s1 t s2 e, M_Handle.run c s l = Some (s1, t) -> M_Handle.step c s1 a = Some (s2, e) -> M_Handle.run c s (l ++ [a]) = Some (s2, t ++ e).
Proof.
  intros c. induction l as [|x l IH]; intros s a s1 t s2 e H D; cbn [M_Handle.run app] in *.
  - injection H as <- <-. rewrite D, app_nil_r. reflexivity.
  - destruct (M_Handle.step c s x) as [[s3 e3]|]; [|discriminate]. destruct (M_Handle.run c s3 l) as [[s4 e4]|] eqn:Q; [|discriminate]. injection H as <- <-.
    rewrite (IH _ _ _ _ _ _ Q D), app_assoc. reflexivity.
Qed.
Lemma acts_snoc : forall c l s a s1 t s2 x, acts c s l = Some (t, s1) -> act c s1 a = Some (s2, x) -> acts c s (l ++ [a]) = Some (t ++ [x], s2).
Proof.
  intros c. induction l as [|y l IH]; intros s a s1 t s2 x H D; cbn [acts app] in *.
  - injection H as <- <-. rewrite D. reflexivity.
  - destruct (act c s y) as [[s3 l3]|]; [|discriminate]. destruct (acts c s3 l) as [[l4 s4]|] eqn:Q; [|discriminate]. injection H as <- <-.
    rewrite (IH _ _ _ _ _ _ Q D). reflexivity.
Qed.
(** what the library does while a callback runs *)
Lemma own_step : forall c h a h' e, (h_own a = true \/ exists ms, a = HRecv ms) -> M_Handle.step (hcfg c) h a = Some (h', e) -> (forall ms, h_i h <> IOn ms) ->
  handled e = [] /\ (forall ms, h_i h' <> IOn ms) /\ (h_d h = DIn -> h_d h' = DIn /\ h_held h' = h_held h).
Proof.
  intros c h a h' e A D NI. unfold M_Handle.step in D. cbn [hcfg M_Handle.sync M_Handle.passive M_Handle.batch] in D.
  destruct a; (destruct A as [A | (ms0 & A)]; [|]); try discriminate A;
    destruct (h_i h) eqn:I; try discriminate D; destruct (h_d h) eqn:DD; try discriminate D;
    repeat match type of D with
    | (if ?x then _ else _) = _ => destruct x
    | match ?x with _ => _ end = _ => destruct x
    end; try discriminate D; injection D as <- <-; cbn; rewrite ?I, ?DD;
    (split; [reflexivity | split; [intros ?; try (destruct (h_disp h)); try discriminate; try (apply NI) | intro; try discriminate; auto]]).
Qed.
Lemma exec_calm : forall c here s f s1 nxt l, exec c here s f = (s1, nxt, l) -> calmf f ->
  queued [l] = [] /\ no_prior [l] /\ threads s1 = threads s /\ strand s1 = strand s /\ match nxt with Some g => calmf g | None => True end.
Proof.
  intros c here s f s1 nxt l E C. destruct f; cbn [calmf] in C; try contradiction; cbn [exec] in E;
    repeat match type of E with
    | (if ?x then _ else _) = _ => destruct x
    | (let '(_, _) := ?x in _) = _ => destruct x
    | match ?x with _ => _ end = _ => destruct x
    end; injection E as <- <- <-; cbn; auto.
  - destruct (ready s); cbn; auto.
  - destruct (sb s); cbn; auto.
Qed.
Lemma exec_mild : forall c s f s1 nxt l, exec c false s f = (s1, nxt, l) -> mild (Some f) -> mild nxt.
Proof.
  intros c s f s1 nxt l E C. destruct f; cbn [mild] in C; try contradiction; cbn [exec] in E.
  - injection E as <- <- <-. destruct (ready s); exact I.
  - destruct (flag s); injection E as <- <- <-; exact I.
Qed.
Lemma s_step : forall c s a s1 l t0 t1, s_own a = true -> act c s a = Some (s1, l) -> threads s = [t0; t1] -> mild t1 -> Forall calmf (strand s) ->
  queued [l] = [] /\ no_prior [l] /\ (exists t1', threads s1 = [t0; t1'] /\ mild t1') /\ Forall calmf (strand s1).
Proof.
  intros c s a s1 l t0 t1 O A T M F. destruct a; cbn [s_own] in O; try discriminate O; cbn [act] in A.
  - apply Nat.eqb_eq in O. subst i. rewrite T in A. cbn [nth_error] in A. destruct t1 as [f|]; [|discriminate A].
    destruct (exec c false s f) as [[s2 nxt] l2] eqn:E. injection A as <- <-.
    assert (CF : calmf f) by (destruct f; cbn in M; try contradiction; exact I).
    destruct (exec_calm _ _ _ _ _ _ _ E CF) as (A1 & A2 & A3 & A4 & _). split; [exact A1|]. split; [exact A2|]. cbn [threads strand set_threads]. rewrite A3, A4, T.
    split; [|exact F]. exists nxt. split; [reflexivity | exact (exec_mild _ _ _ _ _ _ E M)].
  - destruct (strand s) as [|f st] eqn:S; [discriminate A|].
    assert (E : exists s2 nxt, exec c true s f = (s2, nxt, l) /\ s1 = set_strand s2 (push nxt st)).
    { destruct f; try discriminate A; (destruct (exec c true s _) as [[s2 nxt] l2] eqn:E; injection A as <- <-; exists s2, nxt; auto). }
    destruct E as (s2 & nxt & E & ->). inversion F; subst.
    destruct (exec_calm _ _ _ _ _ _ _ E H1) as (A1 & A2 & A3 & A4 & A5). split; [exact A1|]. split; [exact A2|]. cbn [threads strand set_strand]. rewrite A3, T.
    split; [exists t1; auto|]. destruct nxt; cbn [push]; [constructor|]; assumption.
  - destruct (strand s) eqn:S; [|discriminate A]. destruct (posted s); [discriminate A|]. injection A as <- <-. cbn. rewrite T. split; [reflexivity|]. split; [exact I|]. split; [exists t1; auto | repeat constructor].
  - destruct (strand s) as [|f st] eqn:S; [discriminate A|]. destruct f; try discriminate A. injection A as <- <-. cbn. rewrite T. inversion F; subst. split; [reflexivity|]. split; [exact I|]. split; [exists t1; auto | assumption].
  - destruct (strand s) eqn:S; [|discriminate A]. destruct (nth_error (writes s) k) as [w|]; [|discriminate A]. injection A as <- <-. cbn. rewrite T.
    split; [destruct ok; reflexivity|]. split; [destruct ok; exact I|]. split; [exists t1; auto | destruct ok; repeat constructor].
  - apply Nat.eqb_eq in O. subst i. rewrite T in A. cbn [nth_error] in A. destruct t1 as [f|]; [discriminate A|]. destruct (strand s) eqn:S; [|discriminate A]. destruct (writes s); [|discriminate A]. destruct (posted s); [|discriminate A].
    injection A as <- <-. cbn. split; [reflexivity|]. split; [exact I|]. split; [exists (Some FReady); split; [reflexivity | exact I] | rewrite S; constructor].
  - injection A as <- <-. cbn. split; [reflexivity|]. split; [exact I|]. split; [exists t1; auto | exact F].
Qed.
Lemma call0 : forall c s it o s1 l t1, act c s (ACall 0 it false o) = Some (s1, l) -> threads s = [None; t1] -> l = LTau /\ threads s1 = [Some (FCheck it false o); t1] /\ strand s1 = strand s /\ sb s1 = sb s.
Proof. intros c s it o s1 l t1 A T. cbn [act] in A. rewrite T in A. cbn in A. injection A as <- <-. cbn. auto. Qed.
Lemma R_h : forall c s a h' e k t b, R c s t b -> M_Handle.step (hcfg c) (e_h s) a = Some (h', e) -> J c (mk_e h' (e_s s) k) (t ++ e) b -> R c (mk_e h' (e_s s) k) (t ++ e) (b ++ []).
Proof.
  intros c s a h' e k t b [(l & H) S _] D JJ. rewrite app_nil_r. split; [|exact S | exact JJ]. exists (l ++ [a]). exact (hrun_snoc _ _ _ _ _ _ _ _ H D).
Qed.
Lemma R_s : forall c s a x l k t b, R c s t b -> act (ec_send c) (e_s s) a = Some (x, l) -> J c (mk_e (e_h s) x k) t (b ++ [l]) -> R c (mk_e (e_h s) x k) (t ++ []) (b ++ [l]).
Proof.
  intros c s a x l k t b [H (al & S) _] D JJ. rewrite app_nil_r. split; [exact H | | exact JJ]. exists (al ++ [a]). exact (acts_snoc _ _ _ _ _ _ _ _ S D).
Qed.
Lemma coupled_same : forall c h h' k t0 t e b, handled e = [] -> (h_d h = DIn -> h_d h' = DIn /\ h_held h' = h_held h) -> coupled c h k t0 t b -> coupled c h' k t0 (t ++ e) b.
Proof.
  intros c h h' k t0 t e b E D H. unfold coupled in *. rewrite handled_app, E, app_nil_r. destruct k as [|todo ok]; [exact H|]. destruct H as [H1 H2]. destruct (D H1) as [D1 D2]. split; [exact D1|]. rewrite D2. exact H2.
Qed.
Lemma coupled_quiet : forall c h k t0 t b l, queued [l] = [] -> coupled c h k t0 t b -> coupled c h k t0 t (b ++ [l]).
Proof. intros c h k t0 t b l E H. unfold coupled in *. rewrite L_Send.queued_app, E, app_nil_r. exact H. Qed.
Lemma R_step : forall c s a s' e x t b, R c s t b -> estep c s a = Some (s', e, x) -> R c s' (t ++ e) (b ++ x).
Proof.
  intros c s a s' e x t b RR H. pose proof (r_j _ _ _ _ RR) as [NP ST NI (t0 & t1 & T & M1 & CP)].
  destruct a as [ms|a| | | | |a]; cbn [estep] in H.
  - unfold on_h in H. destruct (M_Handle.step (hcfg c) (e_h s) (HRecv ms)) as [[h ev]|] eqn:D; [|discriminate H]. injection H as <- <- <-.
    destruct (own_step _ _ _ _ _ (or_intror (ex_intro _ ms eq_refl)) D NI) as (E1 & E2 & E3). apply (R_h c s _ h ev (e_c s) t b RR D).
    split; [exact NP | exact ST | exact E2 | exists t0, t1; split; [exact T|]; split; [exact M1 | exact (coupled_same _ _ _ _ _ _ _ _ E1 E3 CP)]].
  - destruct (h_own a) eqn:O; [|discriminate H]. unfold on_h in H. destruct (M_Handle.step (hcfg c) (e_h s) a) as [[h ev]|] eqn:D; [|discriminate H]. injection H as <- <- <-.
    destruct (own_step _ _ _ _ _ (or_introl O) D NI) as (E1 & E2 & E3). apply (R_h c s _ h ev (e_c s) t b RR D).
    split; [exact NP | exact ST | exact E2 | exists t0, t1; split; [exact T|]; split; [exact M1 | exact (coupled_same _ _ _ _ _ _ _ _ E1 E3 CP)]].
  - destruct (h_d (e_h s)) eqn:HD; try discriminate H. destruct (e_c s) as [|todo ok] eqn:C; [|discriminate H]. destruct CP as [-> Q]. destruct (ec_batch c) eqn:B.
    + destruct (bytes_of _ _ <? _)%N.
      * set (k := Nat.min greed (length (h_buf (e_h s)))) in *. unfold on_h in H. destruct (M_Handle.step (hcfg c) (e_h s) (HTake k)) as [[h ev]|] eqn:D; [|discriminate H]. injection H as <- <- <-.
        apply (R_h c s _ h ev _ t b RR D). unfold M_Handle.step in D. rewrite HD in D. cbn [hcfg M_Handle.batch] in D. rewrite B in D. cbn [andb] in D. destruct (k <=? _)%nat; [|destruct (h_i (e_h s)); discriminate D].
        assert (D2 : h = M_Handle.set_buf (e_h s) (skipn k (h_buf (e_h s))) (M_Handle.h_bytes (e_h s) - M_Handle.bytes (firstn k (h_buf (e_h s))))%N /\ ev = [EHandled (firstn k (h_buf (e_h s)))]) by (destruct (h_i (e_h s)); injection D as <- <-; auto).
        clear D. destruct D2 as [-> ->]. split; [exact NP | exact ST | exact NI |]. exists None, t1. split; [exact T|]. split; [exact M1|]. cbn [coupled e_h M_Handle.set_buf e_c]. split; [exact HD|]. rewrite B. split; [exact I|].
        rewrite handled_app, echo_app, Q. cbn [handled]. rewrite app_nil_r. reflexivity.
      * unfold on_h in H. destruct (M_Handle.step (hcfg c) (e_h s) (HRet false)) as [[h ev]|] eqn:D; [|discriminate H]. injection H as <- <- <-.
        apply (R_h c s _ h ev _ t b RR D). unfold M_Handle.step in D. rewrite HD in D. cbn [hcfg M_Handle.batch] in D. rewrite B in D.
        assert (D2 : h = M_Handle.set_d (e_h s) DSet /\ ev = []) by (destruct (h_i (e_h s)); injection D as <- <-; auto). clear D. destruct D2 as [-> ->].
        split; [exact NP | exact ST | exact NI |]. exists None, t1. split; [exact T|]. split; [exact M1|]. cbn [coupled e_c]. rewrite app_nil_r. auto.
    + destruct (h_held (e_h s)) as [m|] eqn:HM; [|discriminate H]. unfold on_s in H. destruct (act (ec_send c) (e_s s) (ACall 0 (pk c m) false false)) as [[y l]|] eqn:D; [|discriminate H]. injection H as <- <- <-.
      apply (R_s c s _ y l _ t b RR D). destruct (call0 _ _ _ _ _ _ _ D T) as (-> & T1 & S1 & _).
      split; [apply L_Send.no_prior_app; split; [exact NP | exact I] | cbn [e_s]; rewrite S1; exact ST | exact NI |]. exists (Some (FCheck (pk c m) false false)), t1. split; [exact T1|]. split; [exact M1|].
      cbn [coupled e_h e_c]. split; [exact HD|]. rewrite B. split; [reflexivity|]. exists m. split; [exact HM|]. rewrite L_Send.queued_app. cbn [queued]. rewrite app_nil_r. auto.
  - destruct (e_c s) as [|[|m r] ok] eqn:C; try discriminate H. unfold on_s in H. destruct (act (ec_send c) (e_s s) (ACall 0 (pk c m) false true)) as [[y l]|] eqn:D; [|discriminate H]. injection H as <- <- <-.
    apply (R_s c s _ y l _ t b RR D). cbn [coupled] in CP. destruct CP as [HD CP]. destruct (ec_batch c) eqn:B; [|destruct CP as [CP _]; discriminate CP].
    destruct t0 as [f|]; [cbn [act] in D; rewrite T in D; discriminate D|]. destruct CP as [_ CP]. destruct (call0 _ _ _ _ _ _ _ D T) as (-> & T1 & S1 & _).
    split; [apply L_Send.no_prior_app; split; [exact NP | exact I] | cbn [e_s]; rewrite S1; exact ST | exact NI |]. exists (Some (FCheck (pk c m) false true)), t1. split; [exact T1|]. split; [exact M1|].
    cbn [coupled e_h e_c]. split; [exact HD|]. rewrite B. split; [reflexivity|]. split; [reflexivity|]. rewrite L_Send.queued_app. cbn [queued]. rewrite app_nil_r. exact CP.
  - destruct (e_c s) as [|todo ok] eqn:C; [discriminate H|]. unfold on_s in H. destruct (act (ec_send c) (e_s s) (AThread 0)) as [[y l]|] eqn:D; [|discriminate H]. injection H as <- <- <-.
    apply (R_s c s _ y l _ t b RR D). cbn [coupled] in CP. destruct CP as [HD CP]. cbn [act] in D. rewrite T in D. cbn [nth_error] in D. destruct t0 as [f|]; [|discriminate D].
    destruct f; try (exfalso; destruct (ec_batch c); cbn [mild] in CP; [tauto | destruct CP as (_ & m & _ & X & _); exact X]); cbn [exec] in D.
    + destruct (overflow || _) eqn:OV; cbn in D; injection D as <- <-.
      * split; [apply L_Send.no_prior_app; split; [exact NP | exact I] | exact ST | exact NI |]. exists (Some (FEnq it prior)), t1. split; [cbn; rewrite T; reflexivity|]. split; [exact M1|].
        apply coupled_quiet; [reflexivity|]. cbn [coupled e_h e_c]. split; [exact HD|]. destruct (ec_batch c); [destruct CP as (X & _ & Y); auto | exact CP].
      * split; [apply L_Send.no_prior_app; split; [exact NP | exact I] | exact ST | exact NI |]. exists None, t1. split; [cbn; rewrite T; reflexivity|]. split; [exact M1|].
        apply coupled_quiet; [reflexivity|]. cbn [coupled e_h e_c]. split; [exact HD|]. destruct (ec_batch c); [destruct CP as (_ & -> & _); discriminate OV|].
        destruct CP as (-> & m & HM & -> & -> & -> & Q). split; [reflexivity|]. exists m. split; [exact HM|]. rewrite app_nil_r. exact Q.
    + cbn in D. injection D as <- <-. assert (PF : prior = false) by (destruct (ec_batch c); [tauto | destruct CP as (_ & m & _ & X & _); exact X]). subst prior.
      split; [apply L_Send.no_prior_app; split; [exact NP | exact I] | exact ST | exact NI |]. exists (Some FReady), t1. split; [cbn; rewrite T; reflexivity|]. split; [exact M1|].
      cbn [coupled e_h e_c]. split; [exact HD|]. rewrite L_Send.queued_app. cbn [queued]. rewrite app_nil_r. destruct (ec_batch c).
      * destruct CP as [_ CP]. split; [exact I|]. rewrite <- app_assoc. exact CP.
      * destruct CP as (-> & m & HM & _ & -> & -> & Q). split; [reflexivity|]. exists m. split; [exact HM|]. split; [exact I|]. split; [reflexivity|]. rewrite echo_app, Q. cbn. rewrite app_nil_r. reflexivity.
    + cbn in D. injection D as <- <-. split; [apply L_Send.no_prior_app; split; [exact NP | exact I] | exact ST | exact NI |]. exists (if ready (e_s s) then Some FLoad else None), t1. split; [cbn; rewrite T; reflexivity|]. split; [exact M1|].
      apply coupled_quiet; [reflexivity|]. cbn [coupled e_h e_c]. split; [exact HD|]. destruct (ec_batch c); [destruct (ready (e_s s)); (split; [exact I | apply CP])|].
      destruct CP as (-> & m & HM & _ & -> & Q). split; [reflexivity|]. exists m. split; [exact HM|]. destruct (ready (e_s s)); [split; [exact I|]; auto | exact Q].
    + assert (D2 : threads y = [None; t1] /\ strand y = strand (e_s s) /\ l = LTau) by (destruct (flag (e_s s)); cbn in D; injection D as <- <-; cbn; rewrite T; auto). clear D. destruct D2 as (T1 & S1 & ->).
      split; [apply L_Send.no_prior_app; split; [exact NP | exact I] | cbn [e_s]; rewrite S1; exact ST | exact NI |]. exists None, t1. split; [exact T1|]. split; [exact M1|].
      apply coupled_quiet; [reflexivity|]. cbn [coupled e_h e_c]. split; [exact HD|]. destruct (ec_batch c); [split; [exact I | apply CP]|].
      destruct CP as (-> & m & HM & _ & -> & Q). split; [reflexivity|]. exists m. split; [exact HM | exact Q].
  - destruct (e_c s) as [|[|m r] ok] eqn:C; try discriminate H. destruct (nth_error (threads (e_s s)) 0) as [[f|]|] eqn:N; try discriminate H. unfold on_h in H.
    destruct (M_Handle.step (hcfg c) (e_h s) (HRet ok)) as [[h ev]|] eqn:D; [|discriminate H]. injection H as <- <- <-. apply (R_h c s _ h ev _ t b RR D).
    rewrite T in N. cbn in N. injection N as ->. cbn [coupled] in CP. destruct CP as [HD CP]. unfold M_Handle.step in D. rewrite HD in D. cbn [hcfg M_Handle.batch] in D. destruct (ec_batch c) eqn:B.
    + assert (D2 : h = M_Handle.set_d (e_h s) (if ok then DClear else DSet) /\ ev = []) by (destruct (h_i (e_h s)); injection D as <- <-; auto). clear D. destruct D2 as [-> ->].
      split; [exact NP | exact ST | exact NI |]. exists None, t1. split; [exact T|]. split; [exact M1|]. cbn [coupled e_c]. split; [reflexivity|]. rewrite app_nil_r. destruct CP as [_ CP]. cbn [echo_of flat_map] in CP. rewrite app_nil_r in CP. exact CP.
    + destruct CP as (_ & m & HM & Q). destruct ok.
      * assert (D2 : h = M_Handle.set_d (M_Handle.set_held (e_h s) None) DClear /\ ev = [EHandled (M_Handle.held (e_h s))]) by (destruct (h_i (e_h s)); injection D as <- <-; auto). clear D. destruct D2 as [-> ->].
        split; [exact NP | exact ST | exact NI |]. exists None, t1. split; [exact T|]. split; [exact M1|]. cbn [coupled e_c]. split; [reflexivity|]. rewrite handled_app. unfold M_Handle.held. rewrite HM. cbn [handled]. exact Q.
      * assert (D2 : h = M_Handle.set_d (e_h s) DSet /\ ev = []) by (destruct (h_i (e_h s)); injection D as <- <-; auto). clear D. destruct D2 as [-> ->].
        split; [exact NP | exact ST | exact NI |]. exists None, t1. split; [exact T|]. split; [exact M1|]. cbn [coupled e_c]. split; [reflexivity|]. rewrite app_nil_r in *. exact Q.
  - destruct (s_own a) eqn:O; [|discriminate H]. unfold on_s in H. destruct (act (ec_send c) (e_s s) a) as [[y l]|] eqn:D; [|discriminate H]. injection H as <- <- <-.
    apply (R_s c s _ y l _ t b RR D). destruct (s_step _ _ _ _ _ _ _ O D T M1 ST) as (A1 & A2 & (t1' & T1 & M2) & A4).
    split; [apply L_Send.no_prior_app; split; [exact NP | exact A2] | exact A4 | exact NI |]. exists t0, t1'. split; [exact T1|]. split; [exact M2|]. exact (coupled_quiet _ _ _ _ _ _ _ A1 CP).
Qed.
Lemma R0 : forall c, R c echo0 [] [].
Proof.
  intro c. split; [exists []; reflexivity | exists []; reflexivity |]. split; [exact I | constructor | intros ms X; discriminate X |]. exists None, None. repeat split.
Qed.
Lemma R_run : forall c l s t b s' e x, R c s t b -> eruns c s l = Some (s', e, x) -> R c s' (t ++ e) (b ++ x).
Proof.
  intros c. induction l as [|a l IH]; intros s t b s' e x RR H; cbn [eruns] in H; [injection H as <- <- <-; rewrite !app_nil_r; exact RR|].
  destruct (estep c s a) as [[[s1 e1] b1]|] eqn:D; [|discriminate]. destruct (eruns c s1 l) as [[[s2 e2] b2]|] eqn:Q; [|discriminate]. injection H as <- <- <-.
  rewrite !app_assoc. exact (IH s1 _ _ s2 e2 b2 (R_step _ _ _ _ _ _ _ _ RR D) Q).
Qed.
Lemma R_from0 : forall c l s t b, eruns c echo0 l = Some (s, t, b) -> R c s t b.
Proof. intros c l s t b H. exact (R_run c l echo0 [] [] s t b (R0 c) H). Qed.
Lemma rcv : forall c s t b, R c s t b -> received t = handled t ++ pending (e_h s).
Proof. intros c s t b [(l & H) _ _]. apply (P_Handle.C98 (hcfg c) l (e_h s) t H). left. reflexivity. Qed.

(** what has been given to the system is the beginning of what should come back, in every execution *)
Theorem C156_exact : forall c l s t b, eruns c echo0 l = Some (s, t, b) -> exists rest, handed b ++ rest = echo_of c (received t).
Proof.
  intros c l s t b H. pose proof (R_from0 _ _ _ _ _ H) as RR. rewrite (rcv _ _ _ _ RR). pose proof (r_j _ _ _ _ RR) as [NP _ _ (t0 & t1 & _ & _ & CP)]. destruct (r_s _ _ _ _ RR) as (al & A).
  destruct (P_Send.C22_fifo_exactly_once _ _ _ _ _ A NP) as (tk & _ & Q).
  assert (X : exists r, queued b ++ r = echo_of c (handled t ++ pending (e_h s))); [|destruct X as (r & X); exists (tk ++ sb (e_s s) ++ r); rewrite <- X, <- Q, <- !app_assoc; reflexivity].
  rewrite echo_app. unfold coupled in CP. destruct (e_c s) as [|todo ok].
  - destruct CP as [_ CP]. rewrite CP. eauto.
  - destruct CP as [_ CP]. destruct (ec_batch c).
    + assert (Y : exists r, queued b ++ r = echo_of c (handled t)).
      { destruct t0 as [[]|]; try (destruct CP as [_ CP]; eauto; fail). destruct CP as (_ & _ & CP). eauto. }
      destruct Y as (r & <-). exists (r ++ echo_of c (pending (e_h s))). rewrite app_assoc. reflexivity.
    + destruct CP as (_ & m & HM & CP). assert (Z : exists w, pending (e_h s) = m :: w) by (unfold pending, M_Handle.held; rewrite HM; cbn; eauto). destruct Z as (w & ->).
      assert (Y : exists k : bool, queued b = echo_of c (handled t ++ if k then [m] else [])).
      { destruct t0 as [[]|]; try (exists true; exact (proj2 (proj2 CP))); try (exists false; rewrite app_nil_r; exact (proj2 (proj2 (proj2 CP)))); exists ok; exact CP. }
      destruct Y as ([|] & ->); rewrite echo_app; [exists (echo_of c w); cbn; rewrite <- app_assoc, app_nil_r; reflexivity | exists (echo_of c (m :: w)); cbn; rewrite app_nil_r; reflexivity].
Qed.
Print Assumptions C156_exact.
Lemma eruns_app : forall c l1 l2 s s1 e1 b1 s2 e2 b2, eruns c s l1 = Some (s1, e1, b1) -> eruns c s1 l2 = Some (s2, e2, b2) -> eruns c s (l1 ++ l2) = Some (s2, e1 ++ e2, b1 ++ b2).
Proof.
  intros c. induction l1 as [|a l1 IH]; intros l2 s s1 e1 b1 s2 e2 b2 H1 H2; cbn [eruns app] in *; [injection H1 as <- <- <-; exact H2|].
  destruct (estep c s a) as [[[s3 e3] b3]|]; [|discriminate]. destruct (eruns c s3 l1) as [[[s4 e4] b4]|] eqn:Q; [|discriminate]. injection H1 as <- <- <-.
  rewrite (IH l2 _ _ _ _ _ _ _ Q H2), !app_assoc. reflexivity.
Qed.
Definition path (c : ecfg) (s s' : est) : Prop := exists l e x, Forall no_peer l /\ eruns c s l = Some (s', e, x).
Lemma path_refl : forall c s, path c s s.
Proof. intros c s. exists [], [], []. split; [constructor | reflexivity]. Qed.
Lemma path_trans : forall c s1 s2 s3, path c s1 s2 -> path c s2 s3 -> path c s1 s3.
Proof.
  intros c s1 s2 s3 (l1 & e1 & x1 & F1 & H1) (l2 & e2 & x2 & F2 & H2). exists (l1 ++ l2), (e1 ++ e2), (x1 ++ x2). split; [apply Forall_app; auto | exact (eruns_app _ _ _ _ _ _ _ _ _ _ H1 H2)].
Qed.
Lemma path_one : forall c s a s' e x, no_peer a -> estep c s a = Some (s', e, x) -> path c s s'.
Proof. intros c s a s' e x N H. exists [a], (e ++ []), (x ++ []). split; [repeat constructor; exact N|]. cbn [eruns]. rewrite H. reflexivity. Qed.
Definition link_ok (b : list label) : Prop := up b = true /\ failed b = false.
Definition plain (l : label) : Prop := match l with LUp | LDown | LErr _ => False | _ => True end.
Lemma link_plain : forall b l, plain l -> link_ok b -> link_ok (b ++ [l]).
Proof. intros b l P [U F]. unfold link_ok. rewrite L_Send.up_snoc, L_Send.failed_snoc. destruct l; cbn in P; try contradiction; auto. Qed.
Lemma exec_plain : forall c here s f s1 n l, exec c here s f = (s1, n, l) -> plain l.
Proof.
  intros c here s f s1 n l E. destruct f; cbn [exec] in E;
    repeat match type of E with
    | (if ?x then _ else _) = _ => destruct x
    | (let '(_, _) := ?x in _) = _ => destruct x
    | match ?x with _ => _ end = _ => destruct x
    end; injection E as <- <- <-; exact I.
Qed.
Lemma act_plain : forall c s a s1 l, act c s a = Some (s1, l) -> (goes_on a = true \/ exists it p o, a = ACall 0 it p o) -> plain l.
Proof.
  intros c s a s1 l A G. destruct G as [G | (it & p & o & ->)].
  - destruct a; cbn [goes_on] in G; try discriminate G; cbn [act] in A.
    + destruct (nth_error (threads s) i) as [[f|]|]; try discriminate A. destruct (exec c false s f) as [[s2 n] l2] eqn:E. injection A as <- <-. exact (exec_plain _ _ _ _ _ _ _ E).
    + destruct (strand s) as [|f st]; [discriminate A|].
      destruct f; try discriminate A; (destruct (exec c true s _) as [[s2 n] l2] eqn:E; injection A as <- <-; exact (exec_plain _ _ _ _ _ _ _ E)).
    + destruct (strand s); [|discriminate A]. destruct (posted s); [discriminate A|]. injection A as <- <-. exact I.
    + destruct (strand s) as [|f st]; [discriminate A|]. destruct f; try discriminate A. injection A as <- <-. exact I.
    + destruct ok; [|discriminate G]. destruct (strand s); [|discriminate A]. destruct (nth_error (writes s) k); [|discriminate A]. injection A as <- <-. exact I.
  - cbn [act] in A. destruct (nth_error (threads s) 0) as [[f|]|]; try discriminate A. injection A as <- <-. exact I.
Qed.
Lemma link_step : forall c s a s' e x b, no_peer a -> estep c s a = Some (s', e, x) -> link_ok b -> link_ok (b ++ x).
Proof.
  intros c s a s' e x b N H K.
  assert (HH : forall y k, on_h c s y k = Some (s', e, x) -> link_ok (b ++ x)) by (intros y k X; unfold on_h in X; destruct (M_Handle.step _ _ _) as [[? ?]|]; [|discriminate X]; injection X as <- <- <-; rewrite app_nil_r; exact K).
  assert (SS : forall y k, (goes_on y = true \/ exists it p o, y = ACall 0 it p o) -> on_s c s y k = Some (s', e, x) -> link_ok (b ++ x)).
  { intros y k G X. unfold on_s in X. destruct (act _ _ _) as [[z l]|] eqn:A; [|discriminate X]. injection X as <- <- <-. apply link_plain; [exact (act_plain _ _ _ _ _ A G) | exact K]. }
  destruct a as [ms|a| | | | |a]; cbn [estep no_peer] in *.
  - contradiction.
  - destruct (h_own a); [exact (HH _ _ H) | discriminate H].
  - destruct (h_d (e_h s)); try discriminate H. destruct (e_c s); [|discriminate H]. destruct (ec_batch c); [destruct (_ <? _)%N; exact (HH _ _ H)|].
    destruct (h_held (e_h s)) as [m|]; [|discriminate H]. exact (SS _ _ (or_intror (ex_intro _ _ (ex_intro _ _ (ex_intro _ _ eq_refl)))) H).
  - destruct (e_c s) as [|[|m r] ok]; try discriminate H. exact (SS _ _ (or_intror (ex_intro _ _ (ex_intro _ _ (ex_intro _ _ eq_refl)))) H).
  - destruct (e_c s); [discriminate H|]. exact (SS (AThread 0) _ (or_introl eq_refl) H).
  - destruct (e_c s) as [|[|m r] ok]; try discriminate H. destruct (nth_error _ _) as [[f|]|]; try discriminate H. exact (HH _ _ H).
  - destruct (s_own a) eqn:O; [|discriminate H]. apply (SS a _) in H; [exact H|]. left. destruct a; cbn in *; try discriminate O; try contradiction; try reflexivity. subst. reflexivity.
Qed.
Definition G (c : ecfg) (s : est) : Prop := exists t b, R c s t b /\ link_ok b.
Lemma G_step : forall c s a s' e x, G c s -> no_peer a -> estep c s a = Some (s', e, x) -> G c s'.
Proof. intros c s a s' e x (t & b & RR & K) N H. exists (t ++ e), (b ++ x). split; [exact (R_step _ _ _ _ _ _ _ _ RR H) | exact (link_step _ _ _ _ _ _ _ N H K)]. Qed.
Lemma link_run : forall c l s s' e x b, Forall no_peer l -> eruns c s l = Some (s', e, x) -> link_ok b -> link_ok (b ++ x).
Proof.
  intros c. induction l as [|a l IH]; intros s s' e x b F H K; cbn [eruns] in H; [injection H as <- <- <-; rewrite app_nil_r; exact K|].
  destruct (estep c s a) as [[[s1 e1] b1]|] eqn:D; [|discriminate]. destruct (eruns c s1 l) as [[[s2 e2] b2]|] eqn:Q; [|discriminate]. injection H as <- <- <-. inversion F; subst.
  rewrite app_assoc. exact (IH s1 s2 e2 b2 _ H2 Q (link_step _ _ _ _ _ _ _ H1 D K)).
Qed.
Lemma G_path : forall c s s', G c s -> path c s s' -> G c s'.
Proof. intros c s s' (t & b & RR & K) (l & e & x & F & H). exists (t ++ e), (b ++ x). split; [exact (R_run _ _ _ _ _ _ _ _ RR H) | exact (link_run _ _ _ _ _ _ _ F H K)]. Qed.

Definition credit (c : ecfg) (k : cb) : nat := match k with CSend _ true => if ec_batch c then 0 else 1 | _ => 0 end%nat.
Definition left (c : ecfg) (s : est) : nat := (length (pending (e_h s)) - credit c (e_c s))%nat.
Definition weight (o : option frame) : nat := match o with Some (FCheck _ _ _) => 4 | Some (FEnq _ _) => 3 | Some FReady => 2 | Some FLoad => 1 | _ => 0 end%nat.
Lemma thr_step : forall c s todo ok f t1, G c s -> e_c s = CSend todo ok -> threads (e_s s) = [Some f; t1] ->
  exists s' e x t0' ok', estep c s EThread = Some (s', e, x) /\ e_h s' = e_h s /\ e_c s' = CSend todo ok' /\ (ok = true -> ok' = true) /\ threads (e_s s') = [t0'; t1] /\ (weight t0' < weight (Some f))%nat.
Proof.
  intros c s todo ok f t1 (t & b & RR & _) C T. pose proof (r_j _ _ _ _ RR) as [_ _ _ (t0 & t1' & T' & _ & CP)]. rewrite T in T'. injection T' as <- <-. rewrite C in CP. cbn [coupled] in CP. destruct CP as [_ CP].
  cbn [estep]. rewrite C. unfold on_s. cbn [act]. rewrite T. cbn [nth_error].
  destruct f; try (exfalso; destruct (ec_batch c); cbn [mild] in CP; [tauto | destruct CP as (_ & m & _ & X & _); exact X]); cbn [exec].
  - destruct (overflow || _); do 5 eexists; (split; [reflexivity|]); cbn; rewrite T; repeat (split; [reflexivity || auto|]); cbn; lia.
  - do 5 eexists; (split; [reflexivity|]); cbn; rewrite T; repeat (split; [reflexivity || auto|]); cbn; lia.
  - do 5 eexists; (split; [reflexivity|]); cbn; rewrite T; repeat (split; [reflexivity || auto|]); destruct (ready (e_s s)); cbn; lia.
  - destruct (flag (e_s s)); do 5 eexists; (split; [reflexivity|]); cbn; rewrite T; repeat (split; [reflexivity || auto|]); cbn; lia.
Qed.
Lemma out_cb : forall c n s todo ok t0 t1, G c s -> e_c s = CSend todo ok -> threads (e_s s) = [t0; t1] -> (5 * length todo + weight t0 <= n)%nat ->
  exists s1, path c s s1 /\ e_c s1 = COut /\ h_d (e_h s1) <> DIn /\ (left c s1 <= left c s)%nat.
Proof.
  intros c. induction n as [n IH] using lt_wf_ind. intros s todo ok t0 t1 GG C T L.
  destruct t0 as [f|].
  - destruct (thr_step c s todo ok f t1 GG C T) as (s' & e & x & t0' & ok' & H & EH & C' & OK & T' & W).
    destruct (IH (5 * length todo + weight t0')%nat ltac:(lia) s' todo ok' t0' t1 (G_step c s EThread s' e x GG I H) C' T' ltac:(lia)) as (s1 & P & A & B & D).
    exists s1. split; [exact (path_trans _ _ _ _ (path_one c s EThread s' e x I H) P)|]. split; [exact A|]. split; [exact B|].
    assert (left c s' <= left c s)%nat; [|lia]. unfold left. rewrite EH, C, C'. cbn [credit]. destruct ok; [rewrite (OK eq_refl); lia|]. destruct ok'; destruct (ec_batch c); lia.
  - pose proof GG as (t & b & RR & _). pose proof (r_j _ _ _ _ RR) as [_ _ _ (u0 & u1 & T' & _ & CP)]. rewrite T in T'. injection T' as <- <-. rewrite C in CP. cbn [coupled] in CP. destruct CP as [HD CP].
    destruct todo as [|m r].
    + assert (E : exists h e, M_Handle.step (hcfg c) (e_h s) (HRet ok) = Some (h, e) /\ h_d h <> DIn /\ (length (pending h) <= length (pending (e_h s)) - credit c (CSend [] ok))%nat).
      { unfold M_Handle.step. rewrite HD. cbn [hcfg M_Handle.batch]. cbn [credit]. destruct (ec_batch c).
        - do 2 eexists. split; [destruct (h_i (e_h s)); reflexivity|]. split; [destruct ok; discriminate|]. change (pending (M_Handle.set_d (e_h s) (if ok then DClear else DSet))) with (pending (e_h s)). destruct ok; lia.
        - destruct CP as (_ & m & HM & _). destruct ok.
          + do 2 eexists. split; [destruct (h_i (e_h s)); reflexivity|]. split; [discriminate|]. unfold pending, M_Handle.held. cbn. rewrite HM. cbn. lia.
          + do 2 eexists. split; [destruct (h_i (e_h s)); reflexivity|]. split; [discriminate|]. change (pending (M_Handle.set_d (e_h s) DSet)) with (pending (e_h s)). lia. }
      destruct E as (h & e & E & ND & LE). exists (mk_e h (e_s s) COut).
      assert (X : estep c s EEnd = Some (mk_e h (e_s s) COut, e, [])) by (cbn [estep]; rewrite C, T; cbn [nth_error]; unfold on_h; rewrite E; reflexivity).
      split; [exact (path_one c s EEnd _ _ _ I X)|]. split; [reflexivity|]. split; [exact ND|]. unfold left. rewrite C. cbn [e_h e_c]. change (credit c COut) with 0%nat. lia.
    + destruct (ec_batch c) eqn:B; [|destruct CP as [CP _]; discriminate CP].
      assert (X : exists y, act (ec_send c) (e_s s) (ACall 0 (pk c m) false true) = Some (y, LTau) /\ threads y = [Some (FCheck (pk c m) false true); t1]) by (cbn [act]; rewrite T; cbn; eexists; split; [reflexivity | reflexivity]).
      destruct X as (y & X & T1). assert (H : estep c s ENext = Some (mk_e (e_h s) y (CSend r ok), [], [LTau])) by (cbn [estep]; rewrite C; unfold on_s; rewrite X; reflexivity).
      cbn [length weight] in L.
      destruct (IH (5 * length r + 4)%nat ltac:(lia) (mk_e (e_h s) y (CSend r ok)) r ok (Some (FCheck (pk c m) false true)) t1 (G_step c s ENext _ _ _ GG I H) eq_refl T1 ltac:(cbn [weight]; lia)) as (s1 & P & A & A2 & D).
      exists s1. split; [exact (path_trans _ _ _ _ (path_one c s ENext _ _ _ I H) P)|]. split; [exact A|]. split; [exact A2|]. unfold left in *. rewrite C. exact D.
Qed.
Lemma step_take : forall c h k, h_d h = DIn -> ec_batch c = true -> (k <= length (h_buf h))%nat ->
  exists h1 e, M_Handle.step (hcfg c) h (HTake k) = Some (h1, e) /\ h_buf h1 = skipn k (h_buf h) /\ h_held h1 = h_held h /\ h_i h1 = h_i h.
Proof.
  intros c h k D B L. unfold M_Handle.step. rewrite D. cbn [hcfg M_Handle.batch]. rewrite B. apply Nat.leb_le in L. rewrite L. cbn [andb].
  do 2 eexists. split; [destruct (h_i h); reflexivity|]. repeat split.
Qed.
Lemma step_ret : forall c h, h_d h = DIn -> exists h1 e, M_Handle.step (hcfg c) h (HRet false) = Some (h1, e) /\ h_d h1 <> DIn /\ pending h1 = pending h.
Proof.
  intros c h D. exists (M_Handle.set_d h DSet), []. split; [unfold M_Handle.step; rewrite D; destruct (M_Handle.batch (hcfg c)), (h_i h); reflexivity|]. split; [discriminate | reflexivity].
Qed.
Lemma begins : forall c s, G c s -> e_c s = COut -> h_d (e_h s) = DIn ->
  exists s1 e x, estep c s EBegin = Some (s1, e, x) /\ (left c s1 <= left c s)%nat /\
    ((e_c s1 = COut /\ h_d (e_h s1) <> DIn) \/ (exists todo ok t0 t1, e_c s1 = CSend todo ok /\ threads (e_s s1) = [t0; t1])) /\
    (sb (e_s s) = [] -> 0 < send_limit (ec_send c) -> if ec_batch c then h_buf (e_h s) <> [] -> (left c s1 < left c s)%nat
      else exists t1 it, e_h s1 = e_h s /\ sb (e_s s1) = [] /\ e_c s1 = CSend [] false /\ threads (e_s s1) = [Some (FCheck it false false); t1]).
Proof.
  intros c s GG C HD. pose proof GG as (t & b & RR & _). pose proof (r_j _ _ _ _ RR) as [_ _ NI (t0 & t1 & T & _ & CP)]. rewrite C in CP. cbn [coupled] in CP. destruct CP as [-> _].
  destruct (r_h _ _ _ _ RR) as (lh & RH). pose proof (P_Handle.W_run _ _ _ _ RH) as (_ & _ & WB & WD). rewrite HD in WD. cbn [hcfg M_Handle.batch] in WB, WD.
  cbn [estep]. rewrite HD, C. unfold left. rewrite C. change (credit c COut) with 0%nat. destruct (ec_batch c) eqn:B.
  - destruct (bytes_of (sc_W (ec_send c)) (sb (e_s s)) <? send_limit (ec_send c)) eqn:Q.
    + set (k := Nat.min greed (length (h_buf (e_h s)))).
      destruct (step_take c (e_h s) k HD B ltac:(lia)) as (h1 & e & E & HB & HH & HI).
      unfold on_h. rewrite E. do 3 eexists. split; [reflexivity|]. cbn [e_h e_c e_s].
      assert (PL : length (pending h1) = (length (pending (e_h s)) - k)%nat /\ (k <= length (pending (e_h s)))%nat).
      { unfold pending, M_Handle.held. rewrite HB, HH, HI, (WB eq_refl). cbn [app]. rewrite !app_length, skipn_length. unfold k. lia. }
      destruct PL as [PL PK].
      split; [lia|]. split; [right; do 4 eexists; split; [reflexivity | exact T]|].
      intros _ _ NB. assert (1 <= k)%nat; [|lia]. unfold k, greed. destruct (h_buf (e_h s)); [contradiction NB; reflexivity | cbn; lia].
    + destruct (step_ret c (e_h s) HD) as (h1 & e & E & ND & PE). unfold on_h. rewrite E. do 3 eexists. split; [reflexivity|]. cbn [e_h e_c e_s]. rewrite PE.
      split; [lia|]. split; [left; split; [reflexivity | exact ND]|]. intros EB L0. rewrite EB in Q. exfalso. apply N.ltb_ge in Q. unfold bytes_of in Q. cbn in Q. lia.
  - destruct (h_held (e_h s)) as [m|]; [|destruct WD as [_ WD]; discriminate (WD eq_refl)].
    unfold on_s. cbn [act]. rewrite T. cbn [nth_error]. do 3 eexists. split; [reflexivity|]. cbn. rewrite ?T. split; [lia|]. split; [right; do 4 eexists; split; reflexivity|].
    intros EB _. do 2 eexists. repeat split. exact EB.
Qed.
(** the callback ends, whatever it is doing *)
Lemma out_any : forall c s, G c s -> exists s1, path c s s1 /\ e_c s1 = COut /\ h_d (e_h s1) <> DIn /\ (left c s1 <= left c s)%nat.
Proof.
  intros c s GG. destruct (e_c s) as [|todo ok] eqn:C.
  - destruct (h_d (e_h s)) eqn:D; try (exists s; split; [apply path_refl|]; rewrite D; repeat split; auto; try discriminate; lia).
    destruct (begins c s GG C D) as (s1 & e & x & H & L & [[C1 D1] | (todo & ok & t0 & t1 & C1 & T1)] & _).
    + exists s1. split; [exact (path_one c s EBegin _ _ _ I H)|]. auto.
    + destruct (out_cb c _ s1 todo ok t0 t1 (G_step c s EBegin _ _ _ GG I H) C1 T1 (le_n _)) as (s2 & P & A & B & L2).
      exists s2. split; [exact (path_trans _ _ _ _ (path_one c s EBegin _ _ _ I H) P)|]. split; [exact A|]. split; [exact B | lia].
  - pose proof GG as (t & b & RR & _). pose proof (r_j _ _ _ _ RR) as [_ _ _ (t0 & t1 & T & _)]. exact (out_cb c _ s todo ok t0 t1 GG C T (le_n _)).
Qed.
(** what is queued is sent *)
Lemma drain : forall c n s, G c s -> e_c s = COut -> (L_Send.meas (e_s s) <= n)%nat ->
  exists s1, path c s s1 /\ e_h s1 = e_h s /\ e_c s1 = COut /\ idle (e_s s1).
Proof.
  intros c. induction n as [n IH] using lt_wf_ind. intros s GG C L.
  pose proof GG as (t & b & RR & _). pose proof (r_j _ _ _ _ RR) as [_ _ _ (t0 & t1 & T & _ & CP)]. rewrite C in CP. cbn [coupled] in CP. destruct CP as [-> _].
  destruct (r_s _ _ _ _ RR) as (ls & RS). pose proof (L_Send.run_inv _ _ _ _ _ RS) as IV.
  assert (GO : forall a x l, goes_on a = true -> s_own a = true -> no_peer (ESend a) -> act (ec_send c) (e_s s) a = Some (x, l) ->
    exists s1, path c s s1 /\ e_h s1 = e_h s /\ e_c s1 = COut /\ idle (e_s s1)).
  { intros a x l Ga O NP A. pose proof (L_Send.go_meas _ _ _ _ _ _ IV Ga A) as LT.
    assert (H : estep c s (ESend a) = Some (mk_e (e_h s) x (e_c s), [], [l])) by (cbn [estep]; rewrite O; unfold on_s; rewrite A; reflexivity).
    destruct (IH (L_Send.meas x) ltac:(lia) (mk_e (e_h s) x (e_c s)) (G_step _ _ _ _ _ _ GG NP H) C (le_n _)) as (s1 & P & Q).
    exists s1. split; [exact (path_trans _ _ _ _ (path_one c s _ _ _ _ NP H) P) | exact Q]. }
  destruct (strand (e_s s)) as [|f st] eqn:ES.
  - destruct (posted (e_s s)) as [|p] eqn:EP.
    + destruct (writes (e_s s)) as [|w ws] eqn:EW.
      * destruct t1 as [f|].
        -- destruct (act (ec_send c) (e_s s) (AThread 1)) as [[x l]|] eqn:A; [exact (GO (AThread 1) x l eq_refl eq_refl I A)|].
           exfalso. cbn [act] in A. rewrite T in A. cbn [nth_error] in A. destruct (exec (ec_send c) false (e_s s) f) as [[? ?] ?]. discriminate A.
        -- exists s. split; [apply path_refl|]. split; [reflexivity|]. split; [exact C|]. unfold idle. rewrite T. repeat split; auto.
      * destruct (act (ec_send c) (e_s s) (AComplete 0 true)) as [[x l]|] eqn:A; [exact (GO (AComplete 0 true) x l eq_refl eq_refl eq_refl A)|].
        exfalso. cbn [act] in A. rewrite ES, EW in A. cbn [nth_error] in A. discriminate A.
    + destruct (act (ec_send c) (e_s s) ATask) as [[x l]|] eqn:A; [exact (GO ATask x l eq_refl eq_refl I A)|].
      exfalso. cbn [act] in A. rewrite ES, EP in A. discriminate A.
  - destruct (act (ec_send c) (e_s s) AUserRet) as [[x l]|] eqn:A; [exact (GO AUserRet x l eq_refl eq_refl I A)|].
    destruct (act (ec_send c) (e_s s) AStrand) as [[x l]|] eqn:A2; [exact (GO AStrand x l eq_refl eq_refl I A2)|].
    exfalso. cbn [act] in A, A2. rewrite ES in A, A2. destruct f; try discriminate A; destruct (exec (ec_send c) true (e_s s) _) as [[? ?] ?]; discriminate A2.
Qed.
Lemma own_recv : forall c h a h' e, h_own a = true \/ (exists k, a = HTake k) \/ (exists k, a = HRet k) -> M_Handle.step (hcfg c) h a = Some (h', e) -> received e = [].
Proof.
  intros c h a h' e O D. unfold M_Handle.step in D. destruct a; try (exfalso; destruct O as [O | [[? O] | [? O]]]; discriminate O); clear O; destruct (h_i h), (h_d h); try discriminate D;
    repeat match type of D with
    | (if ?y then _ else _) = _ => destruct y
    | match ?y with _ => _ end = _ => destruct y
    end; try discriminate D; pose proof (f_equal (fun z => match z with Some (_, y) => y | None => [] end) D) as DE; cbn in DE; subst e; reflexivity.
Qed.
Lemma own_len : forall c s a s' e x, G c s -> h_own a = true -> estep c s (EHandle a) = Some (s', e, x) -> length (pending (e_h s')) = length (pending (e_h s)).
Proof.
  intros c s a s' e x (t & b & RR & _) O H. pose proof (R_step _ _ _ _ _ _ _ _ RR H) as R2. pose proof (rcv _ _ _ _ RR) as E1. pose proof (rcv _ _ _ _ R2) as E2.
  cbn [estep] in H. rewrite O in H. unfold on_h in H. destruct (M_Handle.step (hcfg c) (e_h s) a) as [[h1 e1]|] eqn:D; [|discriminate H]. injection H as <- <- <-. cbn [e_h] in *.
  destruct (own_step c (e_h s) a h1 e1 (or_introl O) D (j_in _ _ _ _ (r_j _ _ _ _ RR))) as [HE _].
  rewrite received_app, handled_app, (own_recv _ _ _ _ _ (or_introl O) D), HE, !app_nil_r, E1 in E2. apply app_inv_head in E2. rewrite E2. reflexivity.
Qed.
(** a message that waits is offered *)
Lemma to_in : forall c l s h' t' m ms, G c s -> Forall (fun a => library a = true) l -> M_Handle.run (hcfg c) (e_h s) l = Some (h', t') -> In (EOffer (m :: ms)) t' -> e_c s = COut ->
  exists s1, path c s s1 /\ e_s s1 = e_s s /\ e_c s1 = COut /\ h_d (e_h s1) = DIn /\ length (pending (e_h s1)) = length (pending (e_h s)) /\ (ec_batch c = true -> h_buf (e_h s1) <> []).
Proof.
  intros c. induction l as [|a l IH]; intros s h' t' m ms GG F H IN C; cbn [M_Handle.run] in H; [injection H as <- <-; contradiction|].
  destruct (M_Handle.step (hcfg c) (e_h s) a) as [[h1 e1]|] eqn:D; [|discriminate H]. destruct (M_Handle.run (hcfg c) h1 l) as [[h2 e2]|] eqn:Q; [|discriminate H]. injection H as <- <-. inversion F as [|? ? La Fl]; subst.
  assert (O : h_own a = true) by (destruct a; cbn in La |- *; congruence).
  assert (X : estep c s (EHandle a) = Some (mk_e h1 (e_s s) (e_c s), e1, [])) by (cbn [estep]; rewrite O; unfold on_h; rewrite D; reflexivity).
  pose proof (own_len _ _ _ _ _ _ GG O X) as PL. apply in_app_or in IN. destruct IN as [IN | IN].
  - exists (mk_e h1 (e_s s) (e_c s)). split; [exact (path_one c s (EHandle a) _ _ _ I X)|]. split; [reflexivity|]. split; [exact C|]. enough (h_d h1 = DIn /\ (ec_batch c = true -> h_buf h1 <> [])) as [Z1 Z2] by (split; [exact Z1|]; split; [exact PL | exact Z2]). clear PL X.
    unfold M_Handle.step in D. destruct a; cbn in La; try discriminate La; destruct (h_i (e_h s)), (h_d (e_h s)); try discriminate D;
      repeat match type of D with
      | (if ?y then _ else _) = _ => destruct y
      | match ?y with _ => _ end = _ => destruct y
      end; try discriminate D; pose proof (f_equal (fun z => match z with Some (_, y) => y | None => [] end) D) as DE; cbn in DE; subst e1; cbn in IN; try contradiction;
      (destruct IN as [IN | []]; pose proof (f_equal (fun z => match z with Some (y, _) => y | None => handle0 end) D) as DH; cbn beta iota in DH; subst h1; split; [reflexivity|]; intros B; cbn; rewrite B in IN; congruence).
  - destruct (IH (mk_e h1 (e_s s) (e_c s)) h2 e2 m ms (G_step c s (EHandle a) _ _ _ GG I X) Fl Q IN C) as (s1 & P & A1 & A2 & A3 & A4 & A5). exists s1. split; [exact (path_trans _ _ _ _ (path_one c s (EHandle a) _ _ _ I X) P)|].
    split; [exact A1|]. split; [exact A2|]. split; [exact A3|]. split; [rewrite A4; exact PL | exact A5].
Qed.
(** and accepted, if nothing is left to send *)
Lemma one : forall c s, 0 < send_limit (ec_send c) -> G c s -> e_c s = COut -> h_d (e_h s) <> DIn -> idle (e_s s) -> pending (e_h s) <> [] ->
  exists s1, path c s s1 /\ (left c s1 < left c s)%nat.
Proof.
  intros c s L0 GG C ND ID NE. pose proof GG as (t & b & RR & U & F). destruct (r_h _ _ _ _ RR) as (lh & RH). destruct (r_s _ _ _ _ RR) as (ls & RS).
  pose proof (P_Send.C23_no_lost_wakeup _ _ _ _ _ RS U F ID) as EB.
  assert (WP : waiting (e_h s) = pending (e_h s)) by (unfold waiting, pending; pose proof (j_in _ _ _ _ (r_j _ _ _ _ RR)) as NI; destruct (h_i (e_h s)) as [|ms| | |]; try reflexivity; contradiction (NI ms eq_refl)).
  destruct (pending (e_h s)) as [|m w] eqn:EP; [contradiction NE; reflexivity|]. 
  destruct (P_Handle.C99 _ _ _ _ m w RH ND WP) as (l' & h' & t' & ms & FL & RL & IN).
  destruct (to_in c l' s h' t' m ms GG FL RL IN C) as (s1 & P & S1 & C1 & D1 & L1 & B1).
  pose proof (G_path _ _ _ GG P) as G1. destruct (begins c s1 G1 C1 D1) as (s2 & e & x & H & LE & _ & K). rewrite S1 in K. specialize (K EB L0).
  assert (LL : left c s1 = left c s) by (unfold left; rewrite C, C1, L1; reflexivity).
  destruct (ec_batch c) eqn:B.
  - exists s2. split; [exact (path_trans _ _ _ _ P (path_one c s1 EBegin _ _ _ I H))|]. specialize (K (B1 eq_refl)). lia.
  - destruct K as (t1 & it & EH & EB2 & C2 & T2).
    assert (X : exists s3 e3 x3 s4 e4 x4, estep c s2 EThread = Some (s3, e3, x3) /\ estep c s3 EThread = Some (s4, e4, x4) /\ e_h s4 = e_h s2 /\ e_c s4 = CSend [] true).
    { assert (EX : exists y l, act (ec_send c) (e_s s2) (AThread 0) = Some (y, l) /\ threads y = [Some (FEnq it false); t1] /\ l = LTau).
      { cbn [act]. rewrite T2. cbn [nth_error exec]. rewrite EB2. unfold bytes_of. cbn [orb]. replace (_ <? _) with true by (symmetry; apply N.ltb_lt; cbn; lia). do 2 eexists. split; [reflexivity|]. cbn. rewrite T2. split; reflexivity. }
      destruct EX as (y & l & A & Ty & ->).
      exists (mk_e (e_h s2) y (CSend [] false)). do 2 eexists.
      assert (EX : exists z l, act (ec_send c) y (AThread 0) = Some (z, l) /\ exists i p, l = LEnq i p).
      { cbn [act]. rewrite Ty. cbn [nth_error exec]. do 2 eexists. split; [reflexivity|]. do 2 eexists. reflexivity. }
      destruct EX as (z & l & A2 & i & p & ->). exists (mk_e (e_h s2) z (CSend [] true)). do 2 eexists.
      split; [cbn [estep]; rewrite C2; unfold on_s; rewrite A; reflexivity|]. split; [cbn [estep e_c e_s]; unfold on_s; cbn [e_s]; rewrite A2; reflexivity|]. split; reflexivity. }
    destruct X as (s3 & e3 & x3 & s4 & e4 & x4 & H3 & H4 & EH4 & C4). exists s4.
    split; [exact (path_trans _ _ _ _ P (path_trans _ _ _ _ (path_one c s1 EBegin _ _ _ I H) (path_trans _ _ _ _ (path_one c s2 EThread _ _ _ I H3) (path_one c s3 EThread _ _ _ I H4))))|].
    unfold left. rewrite C4, EH4, EH, C. cbn [credit]. rewrite B, L1, EP. cbn. lia.
Qed.
Lemma rest_all : forall c s t b, R c s t b -> link_ok b -> e_c s = COut -> idle (e_s s) -> pending (e_h s) = [] -> handed b = echo_of c (received t).
Proof.
  intros c s t b RR [U F] C ID PE. destruct (r_s _ _ _ _ RR) as (ls & RS). pose proof (P_Send.C23_no_lost_wakeup _ _ _ _ _ RS U F ID) as EB.
  destruct (r_j _ _ _ _ RR) as [NP _ _ (t0 & t1 & _ & _ & CP)]. rewrite C in CP. destruct CP as [_ CP].
  destruct (P_Send.C22_fifo_exactly_once _ _ _ _ _ RS NP) as (tk & TK & E). destruct ID as (_ & SE & _). rewrite (TK SE), EB, !app_nil_r in E.
  rewrite E, CP, (rcv _ _ _ _ RR), PE, app_nil_r. reflexivity.
Qed.
Lemma np_recv : forall c s a s' e x, no_peer a -> estep c s a = Some (s', e, x) -> received e = [].
Proof.
  intros c s a s' e x N H.
  assert (HH : forall y k, (h_own y = true \/ (exists k, y = HTake k) \/ (exists k, y = HRet k)) -> on_h c s y k = Some (s', e, x) -> received e = []).
  { intros y k O X. unfold on_h in X. destruct (M_Handle.step _ _ _) as [[? ?]|] eqn:D; [|discriminate X]. injection X as <- <- <-. exact (own_recv _ _ _ _ _ O D). }
  assert (SS : forall y k, on_s c s y k = Some (s', e, x) -> received e = []) by (intros y k X; unfold on_s in X; destruct (act _ _ _) as [[z l]|]; [|discriminate X]; injection X as <- <- <-; reflexivity).
  destruct a as [ms|a| | | | |a]; cbn [estep no_peer] in *.
  - contradiction.
  - destruct (h_own a) eqn:O; [exact (HH _ _ (or_introl O) H) | discriminate H].
  - destruct (h_d (e_h s)); try discriminate H. destruct (e_c s); [|discriminate H]. destruct (ec_batch c); [destruct (_ <? _)%N; eapply HH; try exact H; eauto|].
    destruct (h_held (e_h s)) as [m|]; [|discriminate H]. exact (SS _ _ H).
  - destruct (e_c s) as [|[|m r] ok]; try discriminate H. exact (SS _ _ H).
  - destruct (e_c s); [discriminate H|]. exact (SS _ _ H).
  - destruct (e_c s) as [|[|m r] ok]; try discriminate H. destruct (nth_error _ _) as [[f|]|]; try discriminate H. eapply HH; try exact H; eauto.
  - destruct (s_own a); [exact (SS _ _ H) | discriminate H].
Qed.
(** wherever the server is: if the link stays up and the peer reads, everything received so far can still come back, without the peer
    sending anything more *)
Theorem C156_finishes : forall c l s t b, eruns c echo0 l = Some (s, t, b) -> 0 < send_limit (ec_send c) -> up b = true -> failed b = false ->
  exists l2 s2 t2 b2, Forall no_peer l2 /\ eruns c s l2 = Some (s2, t2, b2) /\ handed (b ++ b2) = echo_of c (received t).
Proof.
  intros c l s t b H L0 U F. pose proof (R_from0 _ _ _ _ _ H) as RR.
  assert (M : forall n s, G c s -> (left c s <= n)%nat -> exists s2, path c s s2 /\ e_c s2 = COut /\ idle (e_s s2) /\ pending (e_h s2) = []).
  { induction n as [n IH] using lt_wf_ind. intros s0 G0 LN.
    destruct (out_any c s0 G0) as (s1 & P1 & C1 & D1 & LE1). pose proof (G_path _ _ _ G0 P1) as G1.
    destruct (drain c _ s1 G1 C1 (le_n _)) as (s2 & P2 & H2 & C2 & ID2). pose proof (G_path _ _ _ G1 P2) as G2.
    destruct (pending (e_h s2)) as [|m w] eqn:EP; [exists s2; split; [exact (path_trans _ _ _ _ P1 P2)|]; auto|].
    destruct (one c s2 L0 G2 C2 ltac:(rewrite H2; exact D1) ID2 ltac:(rewrite EP; discriminate)) as (s3 & P3 & LT).
    assert (left c s2 = left c s1) by (unfold left; rewrite H2, C1, C2; reflexivity).
    destruct (IH (left c s3) ltac:(lia) s3 (G_path _ _ _ G2 P3) (le_n _)) as (s4 & P4 & Q). exists s4. split; [exact (path_trans _ _ _ _ P1 (path_trans _ _ _ _ P2 (path_trans _ _ _ _ P3 P4))) | exact Q]. }
  destruct (M _ s (ex_intro _ t (ex_intro _ b (conj RR (conj U F)))) (le_n _)) as (s2 & (l2 & t2 & b2 & NP & H2) & C2 & ID & PE).
  exists l2, s2, t2, b2. split; [exact NP|]. split; [exact H2|].
  rewrite (rest_all c s2 (t ++ t2) (b ++ b2) (R_run _ _ _ _ _ _ _ _ RR H2) (link_run _ _ _ _ _ _ _ NP H2 (conj U F)) C2 ID PE).
  rewrite received_app. replace (received t2) with (@nil M_Handle.msg); [rewrite app_nil_r; reflexivity|].
  clear - NP H2. revert s s2 t2 b2 H2. induction l2 as [|a l2 IH]; intros s s2 t2 b2 H; cbn [eruns] in H; [injection H as <- <- <-; reflexivity|].
  destruct (estep c s a) as [[[s1 e1] b1]|] eqn:D; [|discriminate]. destruct (eruns c s1 l2) as [[[s3 e3] b3]|] eqn:Q; [|discriminate]. injection H as <- <- <-. inversion NP as [|? ? Na Nl]; subst.
  rewrite received_app, <- (IH Nl _ _ _ _ Q), app_nil_r. symmetry. exact (np_recv _ _ _ _ _ _ Na D).
Qed.
Print Assumptions C156_finishes.
(** and once it has come to a rest, everything did *)
Theorem C156_at_rest : forall c l s t b, eruns c echo0 l = Some (s, t, b) -> 0 < send_limit (ec_send c) -> up b = true -> failed b = false ->
  (forall a, no_peer a -> estep c s a = None) -> handed b = echo_of c (received t).
Proof.
  intros c l s t b H L0 U F ST. destruct (C156_finishes _ _ _ _ _ H L0 U F) as (l2 & s2 & t2 & b2 & NP & H2 & E).
  destruct l2 as [|a l2]; cbn [eruns] in H2; [injection H2 as <- <- <-; rewrite app_nil_r in E; exact E|].
  inversion NP as [|? ? Na _]; subst. rewrite (ST a Na) in H2. discriminate H2.
Qed.
Print Assumptions C156_at_rest.

(** the messages waiting to be sent stay bounded *)
Definition roomy (c : ecfg) (M : N) (s : est) : Prop :=
  match e_c s with
  | COut => total (sb (e_s s)) <= send_limit (ec_send c) - 1 + at_once c * M
  | CSend todo _ =>
      if ec_batch c then
        total (sb (e_s s)) + M * N.of_nat (length todo) + match nth_error (threads (e_s s)) 0 with Some (Some (FCheck it _ _)) | Some (Some (FEnq it _)) => total it | _ => 0 end
          <= send_limit (ec_send c) - 1 + at_once c * M
      else match nth_error (threads (e_s s)) 0 with
           | Some (Some (FCheck it _ o)) => o = false /\ total it <= M /\ total (sb (e_s s)) <= send_limit (ec_send c) - 1 + at_once c * M
           | Some (Some (FEnq it _)) => total (sb (e_s s)) + total it <= send_limit (ec_send c) - 1 + at_once c * M
           | _ => total (sb (e_s s)) <= send_limit (ec_send c) - 1 + at_once c * M
           end
  end.
Lemma roomy_sb : forall c M s, roomy c M s -> total (sb (e_s s)) <= send_limit (ec_send c) - 1 + at_once c * M.
Proof.
  intros c M s. unfold roomy. destruct (e_c s); [auto|]. destruct (ec_batch c); [lia|]. destruct (nth_error _ _) as [[[]|]|]; intros; try lia; try tauto.
Qed.
Lemma s_sb : forall c s a s1 l t0 t1, s_own a = true -> act c s a = Some (s1, l) -> threads s = [t0; t1] -> mild t1 -> Forall calmf (strand s) -> total (sb s1) <= total (sb s).
Proof.
  assert (X : forall c here s f s1 n l, exec c here s f = (s1, n, l) -> calmf f -> total (sb s1) <= total (sb s)).
  { intros c here s f s1 n l E C. destruct f; cbn [calmf] in C; try contradiction; cbn [exec] in E;
      try (repeat match type of E with
      | (if ?x then _ else _) = _ => destruct x
      | match ?x with _ => _ end = _ => destruct x
      end; injection E as <- <- <-; cbn; lia).
    destruct (q_out_bytes _ _ _) as [o q] eqn:Q. apply L_Send.out_split in Q. destruct Q as [Q _]. injection E as <- <- <-. cbn. rewrite <- Q, L_Queue.total_app. lia. }
  intros c s a s1 l t0 t1 O A T M F. destruct a; cbn [s_own] in O; try discriminate O; cbn [act] in A.
  - apply Nat.eqb_eq in O. subst i. rewrite T in A. cbn [nth_error] in A. destruct t1 as [f|]; [|discriminate A].
    destruct (exec c false s f) as [[s2 nxt] l2] eqn:E. injection A as <- <-. cbn. apply (X _ _ _ _ _ _ _ E). destruct f; cbn in M; try contradiction; exact I.
  - destruct (strand s) as [|f st] eqn:S; [discriminate A|].
    assert (E : exists s2 nxt, exec c true s f = (s2, nxt, l) /\ s1 = set_strand s2 (push nxt st)).
    { destruct f; try discriminate A; (destruct (exec c true s _) as [[s2 nxt] l2] eqn:E; injection A as <- <-; exists s2, nxt; auto). }
    destruct E as (s2 & nxt & E & ->). inversion F; subst. cbn. exact (X _ _ _ _ _ _ _ E H1).
  - destruct (strand s); [|discriminate A]. destruct (posted s); [discriminate A|]. injection A as <- <-. cbn. lia.
  - destruct (strand s) as [|f st]; [discriminate A|]. destruct f; try discriminate A. injection A as <- <-. cbn. lia.
  - destruct (strand s); [|discriminate A]. destruct (nth_error (writes s) k); [|discriminate A]. injection A as <- <-. cbn. lia.
  - destruct (nth_error (threads s) i) as [[f|]|]; try discriminate A. destruct (strand s); [|discriminate A]. destruct (writes s); [|discriminate A]. destruct (posted s); [|discriminate A]. injection A as <- <-. cbn. lia.
  - injection A as <- <-. cbn. lia.
Qed.
Lemma roomy_step : forall c M s a s' e x t b, 0 < send_limit (ec_send c) -> (forall m, total (pk c m) <= M) -> send_limit (ec_send c) - 1 + at_once c * M < sc_W (ec_send c) ->
  R c s t b -> roomy c M s -> estep c s a = Some (s', e, x) -> roomy c M s'.
Proof.
  intros c M s a s' e x t b L0 PM LW RR RO H. pose proof (roomy_sb _ _ _ RO) as TS. pose proof (r_j _ _ _ _ RR) as [_ ST _ (t0 & t1 & T & M1 & CP)].
  assert (BY : bytes_of (sc_W (ec_send c)) (sb (e_s s)) = total (sb (e_s s))) by (rewrite L_Queue.bytes_of_ok by lia; apply N.mod_small; lia).
  assert (HK : forall y, on_h c s y (e_c s) = Some (s', e, x) -> roomy c M s') by (intros y X; unfold on_h in X; destruct (M_Handle.step _ _ _) as [[? ?]|]; [|discriminate X]; injection X as <- <- <-; exact RO).
  destruct a as [ms|a| | | | |a]; cbn [estep] in H.
  - exact (HK _ H).
  - destruct (h_own a); [exact (HK _ H) | discriminate H].
  - destruct (h_d (e_h s)); try discriminate H. destruct (e_c s) eqn:C; [|discriminate H]. cbn [coupled] in CP. destruct CP as [-> _]. destruct (ec_batch c) eqn:B.
    + rewrite BY in H. destruct (total (sb (e_s s)) <? send_limit (ec_send c)) eqn:Q.
      * assert (LF : N.of_nat (length (firstn (Nat.min greed (length (h_buf (e_h s)))) (h_buf (e_h s)))) <= 10) by (rewrite firstn_length; unfold greed; lia).
        revert H LF. generalize (firstn (Nat.min greed (length (h_buf (e_h s)))) (h_buf (e_h s))). generalize (Nat.min greed (length (h_buf (e_h s)))). intros k todo H LF.
        unfold on_h in H. destruct (M_Handle.step _ _ _) as [[? ?]|]; [|discriminate H]. injection H as <- <- <-. unfold roomy. cbn [e_c e_s]. rewrite B, T. cbn [nth_error].
        apply N.ltb_lt in Q. unfold at_once. rewrite B. revert LF. generalize (N.of_nat (length todo)). intros n LF. nia.
      * unfold on_h in H. destruct (M_Handle.step _ _ _) as [[? ?]|]; [|discriminate H]. injection H as <- <- <-. exact TS.
    + destruct (h_held (e_h s)) as [m|]; [|discriminate H]. unfold on_s in H. destruct (act _ _ _) as [[y l]|] eqn:A; [|discriminate H]. injection H as <- <- <-.
      destruct (call0 _ _ _ _ _ _ _ A T) as (_ & T2 & _ & SB). unfold roomy. cbn [e_c e_s]. rewrite B, T2, SB. cbn [nth_error]. auto.
  - destruct (e_c s) as [|[|m r] ok] eqn:C; try discriminate H. cbn [coupled] in CP. destruct CP as [_ CP]. unfold on_s in H. destruct (act _ _ _) as [[y l]|] eqn:A; [|discriminate H]. injection H as <- <- <-.
    destruct t0 as [f|]; [cbn [act] in A; rewrite T in A; cbn [nth_error] in A; discriminate A|].
    destruct (call0 _ _ _ _ _ _ _ A T) as (_ & T2 & _ & SB). unfold roomy in RO |- *. cbn [e_c e_s]. rewrite C, T in RO. rewrite T2, SB. cbn [nth_error] in *. destruct (ec_batch c); [|destruct CP as [CP _]; discriminate CP].
    pose proof (PM m). cbn [length] in RO. nia.
  - destruct (e_c s) as [|todo ok] eqn:C; [discriminate H|]. cbn [coupled] in CP. destruct CP as [_ CP]. unfold on_s in H. destruct (act _ _ _) as [[y l]|] eqn:A; [|discriminate H]. injection H as <- <- <-.
    cbn [act] in A. rewrite T in A. cbn [nth_error] in A. destruct t0 as [f|]; [|discriminate A]. clear HK. unfold roomy in RO |- *. rewrite C, T in RO. cbn [nth_error e_c e_s] in RO |- *.
    destruct f; try (exfalso; destruct (ec_batch c); cbn [mild] in CP; [tauto | destruct CP as (_ & m & _ & X & _); exact X]); cbn [exec] in A.
    + rewrite BY in A. destruct (overflow || (total (sb (e_s s)) <? send_limit (ec_send c))) eqn:Q; injection A as <- <-; cbn; destruct (ec_batch c) eqn:B; try lia.
      destruct RO as (-> & RI & _). cbn [orb] in Q. apply N.ltb_lt in Q. unfold at_once in *. rewrite B in *. lia.
    + assert (prior = false) as -> by (destruct (ec_batch c); [tauto | destruct CP as (_ & m & _ & X & _); exact X]). injection A as <- <-. cbn. rewrite L_Queue.total_app. destruct (ec_batch c); lia.
    + injection A as <- <-. cbn. destruct (ready (e_s s)); exact RO.
    + destruct (flag (e_s s)); injection A as <- <-; cbn; exact RO.
  - destruct (e_c s) as [|[|m r] ok] eqn:C; try discriminate H. destruct (nth_error _ _) as [[f|]|]; try discriminate H. unfold on_h in H. destruct (M_Handle.step _ _ _) as [[? ?]|]; [|discriminate H]. injection H as <- <- <-. exact TS.
  - destruct (s_own a) eqn:O; [|discriminate H]. unfold on_s in H. destruct (act _ _ _) as [[y l]|] eqn:A; [|discriminate H]. injection H as <- <- <-.
    pose proof (s_sb _ _ _ _ _ _ _ O A T M1 ST) as LE. destruct (s_step _ _ _ _ _ _ _ O A T M1 ST) as (_ & _ & (t1' & T2 & _) & _).
    unfold roomy in *. cbn [e_c e_s]. destruct (e_c s); [lia|]. rewrite T in RO. rewrite T2. cbn [nth_error] in *. destruct (ec_batch c); [lia|]. destruct t0 as [[]|]; lia.
Qed.
Theorem C156_bound : forall c l s t b M, eruns c echo0 l = Some (s, t, b) -> 0 < send_limit (ec_send c) -> (forall m, total (pk c m) <= M) ->
  send_limit (ec_send c) - 1 + at_once c * M < sc_W (ec_send c) -> total (sb (e_s s)) <= send_limit (ec_send c) - 1 + at_once c * M.
Proof.
  intros c l s t b M H L0 PM LW.
  assert (X : forall l s0 t0 b0 s t b, R c s0 t0 b0 -> roomy c M s0 -> eruns c s0 l = Some (s, t, b) -> roomy c M s).
  { clear l s t b H. induction l as [|a l IH]; intros s0 t0 b0 s2 t2 b2 RR RO E; cbn [eruns] in E; [injection E as <- <- <-; exact RO|].
    destruct (estep c s0 a) as [[[s1 e1] b1]|] eqn:D; [|discriminate]. destruct (eruns c s1 l) as [[[s3 e3] b3]|] eqn:Q; [|discriminate]. injection E as <- <- <-.
    exact (IH s1 _ _ _ _ _ (R_step _ _ _ _ _ _ _ _ RR D) (roomy_step _ _ _ _ _ _ _ _ _ L0 PM LW RR RO D) Q). }
  apply roomy_sb. refine (X l _ _ _ _ _ _ (R0 c) _ H). unfold roomy. cbn. lia.
Qed.
Print Assumptions C156_bound.

Definition pk2 (m : M_Handle.msg) : list (list byte) := [[byte_of_N 2; byte_of_N (N.of_nat (fst m))]].
Definition ec1 : ecfg := mk_ec false (mk_sc 1 65536 (2 ^ 64)) pk2.
Definition ec10 : ecfg := mk_ec true (mk_sc 1 65536 (2 ^ 64)) pk2.
Definition em1 : M_Handle.msg := (1%nat, 2). Definition em2 : M_Handle.msg := (2%nat, 2). Definition em3 : M_Handle.msg := (3%nat, 2).
Definition ex_up : list eact := [ESend (AUp 1); ESend (AThread 1); ESend (AThread 1); ESend ATask] ++ repeat (ESend AStrand) 5.
Definition ex_write : list eact := [ESend ATask] ++ repeat (ESend AStrand) 3.
Definition ex_sent : list eact := [ESend (AComplete 0 true); ESend AUserRet] ++ repeat (ESend AStrand) 6.
Definition ex_call : list eact := [EBegin] ++ repeat EThread 4 ++ [EEnd].
(** the second message is refused while the first is in the send buffer, and tried again later *)
Definition ex_echo1 : list eact :=
  ex_up ++ [ERecv [em1; em2]] ++ map EHandle [HMove; HTest; HPost; HRun; HMark] ++ ex_call ++ map EHandle [HClear; HRepost; HRun; HMark] ++ [EBegin; EThread; EEnd; EHandle HSet].
Definition ex_echo2 : list eact := ex_write ++ ex_sent ++ map EHandle [HFire; HRun; HMark] ++ ex_call ++ ex_write ++ ex_sent ++ map EHandle [HClear; HRepost; HRun].
Example C156_ex : exists s t b, eruns ec1 echo0 ex_echo1 = Some (s, t, b) /\ up b = true /\ failed b = false /\ received t = [em1; em2] /\ handled t = [em1] /\ In LRefuse b /\ handed b = [] /\
  exists s2 t2 b2, eruns ec1 s ex_echo2 = Some (s2, t2, b2) /\ Forall no_peer ex_echo2 /\ handed (b ++ b2) = echo_of ec1 [em1; em2] /\ (forall a, no_peer a -> estep ec1 s2 a = None).
Proof.
  do 3 eexists. split; [vm_compute; reflexivity|]. repeat (split; [vm_compute; reflexivity || tauto|]).
  do 3 eexists. split; [vm_compute; reflexivity|]. split; [repeat constructor|]. split; [vm_compute; reflexivity|].
  intros a Na. destruct a as [ms|a| | | | |a]; try contradiction; try reflexivity.
  - destruct a; reflexivity.
  - destruct a; try contradiction; try reflexivity.
    + destruct i as [|[|[|i]]]; reflexivity.
    + destruct k; reflexivity.
Qed.
(** three messages in one batch; the fourth waits until the buffer is empty *)
Example C156_ex_batch : exists s t b, eruns ec10 echo0 (ex_up ++ [ERecv [em1; em2; em3]] ++ map EHandle [HMove; HTest; HPost; HRun; HMark] ++
    [EBegin; ENext; EThread; EThread; EThread; EThread; ENext; EThread; EThread; EThread; EThread; ENext; EThread; EThread; EThread; EThread; EEnd; ERecv [em1]] ++
    map EHandle [HMove; HClear; HRepost; HRun; HMark] ++ [EBegin; EHandle HSet]) = Some (s, t, b) /\
  up b = true /\ failed b = false /\ handled t = [em1; em2; em3] /\ received t = [em1; em2; em3; em1] /\ total (sb (e_s s)) = 6 /\ handed b = [].
Proof. do 3 eexists. split; [vm_compute; reflexivity|]. repeat (split; [vm_compute; reflexivity|]). reflexivity. Qed.
