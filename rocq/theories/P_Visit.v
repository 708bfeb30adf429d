(** Properties of functions that visit all objects (C120-C123). *)
From Coq Require Import List Arith Bool Lia.
From Verif Require Import M_Visit S_Visit.
Import ListNotations.

Ltac pj := cbn [s_lock s_app s_pool s_link s_pend s_thr l_up l_starting l_buf l_sending l_writing with_app with_thr put enqueue link0] in *.

(** ** lists *)
Lemma set_nth_eq {A} : forall (l : list A) k x y, nth_error l k = Some y -> nth_error (set_nth k x l) k = Some x.
Proof. induction l as [|a l IH]; intros [|k] x y H; try discriminate; cbn in *; [reflexivity | eapply IH; eassumption]. Qed.
Lemma set_nth_neq {A} : forall (l : list A) k j x, j <> k -> nth_error (set_nth k x l) j = nth_error l j.
Proof. induction l as [|a l IH]; intros [|k] [|j] x H; cbn; try reflexivity; try congruence. apply IH. congruence. Qed.
Lemma in_del {A} : forall (l : list A) k h x, nth_error l k = Some h -> In x l -> x = h \/ In x (del_nth k l).
Proof.
  induction l as [|a l IH]; intros [|k] h x H I; try discriminate; cbn in *.
  - injection H as ->. destruct I as [<-|I]; auto.
  - destruct I as [<-|I]; [right; left; reflexivity|]. destruct (IH _ _ _ H I); auto.
Qed.
Lemma upd_eq f i l : upd f i l i = l.
Proof. unfold upd. rewrite Nat.eqb_refl. reflexivity. Qed.
Lemma upd_neq f i l j : j <> i -> upd f i l j = f j.
Proof. intro H. unfold upd. destruct (Nat.eqb_spec j i); congruence. Qed.

(** ** runs *)
Lemma run_app c : forall l1 l2 s, run c s (l1 ++ l2) = match run c s l1 with Some (s1, t1) => match run c s1 l2 with Some (s2, t2) => Some (s2, t1 ++ t2) | None => None end | None => None end.
Proof.
  induction l1 as [|a l1 IH]; intros l2 s; cbn; [destruct (run c s l2) as [[? ?]|]; reflexivity|].
  destruct (step c s a) as [[s1 e1]|]; [|reflexivity]. rewrite IH. destruct (run c s1 l1) as [[s2 t2]|]; [|reflexivity].
  destruct (run c s2 l2) as [[s3 t3]|]; [rewrite app_assoc|]; reflexivity.
Qed.
Lemma run_inv c (P : st -> list ev -> Prop) (ok : act -> bool) :
  (forall s t a s' e, P s t -> ok a = true -> step c s a = Some (s', e) -> P s' (t ++ e)) ->
  forall l s t s' t', P s t -> forallb ok l = true -> run c s l = Some (s', t') -> P s' (t ++ t').
Proof.
  intros H. induction l as [|a l IH]; intros s t s' t' J F R; cbn in R; [injection R as <- <-; rewrite app_nil_r; exact J|].
  cbn in F. apply andb_prop in F. destruct F as [F1 F2].
  destruct (step c s a) as [[s1 e1]|] eqn:D; [|discriminate]. destruct (run c s1 l) as [[s2 e2]|] eqn:R2; [|discriminate].
  injection R as <- <-. rewrite app_assoc. exact (IH s1 (t ++ e1) s2 e2 (H _ _ _ _ _ J F1 D) F2 R2).
Qed.
Lemma all_ok : forall l : list act, forallb (fun _ => true) l = true.
Proof. induction l; [reflexivity | exact IHl]. Qed.

(** case analysis of a step *)
Ltac cases D :=
  unfold step, visit, shut, do_send in D;
  repeat (match type of D with
          | None = Some _ => discriminate D
          | Some _ = Some _ => injection D as <- <-
          | context [match ?x with _ => _ end] => let E := fresh "E" in destruct x eqn:E; try discriminate D
          | (let '(_, _) := ?x in _) = _ => destruct x
          end; pj).

(** ** C122: every valid object is visited exactly once and treated as asked; objects neither come nor go meanwhile *)
Lemma monitor_app : forall t1 t2 x, monitor x (t1 ++ t2) = match monitor x t1 with Some y => monitor y t2 | None => None end.
Proof. induction t1 as [|e t1 IH]; intros t2 x; cbn; [reflexivity|]. destruct (mstep x e); [apply IH | reflexivity]. Qed.
Definition J122 (s : st) (t : list ev) : Prop :=
  s_lock s = (match s_app s with Visit _ _ | Stuck => true | _ => false end) /\
  exists o, monitor ([], None) t = Some (s_pool s, o) /\ match s_app s with Visit f l => o = Some (f, l) | Stuck => True | _ => o = None end.
Lemma monitor_wire v i ms : monitor v (wire i ms) = Some v.
Proof. destruct ms; destruct v; reflexivity. Qed.
Lemma shut_ok : forall s i s' e, shut s i = (s', e) -> s_lock s' = s_lock s /\ s_app s' = s_app s /\ s_pool s' = s_pool s /\ s_thr s' = s_thr s /\ forall x, monitor x e = Some x.
Proof. intros s i s' e H. unfold shut in H. destruct (l_up (s_link s i)); injection H as <- <-; repeat split; intros [? ?]; reflexivity. Qed.
Lemma visit_ok : forall c s f i s' e x, visit c s f i = Some (Some (s', e, x)) ->
  s_lock s' = s_lock s /\ s_app s' = s_app s /\ s_pool s' = s_pool s /\ s_thr s' = s_thr s /\ fits f x = true /\ forall y, monitor y e = Some y.
Proof.
  intros c s f i s' e x H. unfold visit in H. destruct f as [|sf ov m|asks].
  - destruct (c_inline c).
    + destruct (l_starting (s_link s i)); [discriminate|]. destruct (shut s i) as [s1 e1] eqn:S. injection H as <- <- <-. apply shut_ok in S. tauto.
    + injection H as <- <- <-. repeat split.
  - destruct (ov || (length (l_buf (s_link s i)) <? c_limit c)); [|destruct (sf && l_up (s_link s i)); [discriminate|]]; injection H as <- <- <-; repeat split; apply Nat.eqb_refl.
  - destruct asks; [discriminate|]. injection H as <- <- <-. repeat split.
Qed.
Lemma filter_out : forall i l, existsb (Nat.eqb i) l = false -> filter (fun j => negb (j =? i)) l = l.
Proof.
  induction l as [|a l IH]; cbn; intro H; [reflexivity|]. apply orb_false_iff in H. destruct H as [H1 H2]. rewrite Nat.eqb_sym, H1. cbn. rewrite (IH H2). reflexivity.
Qed.
Lemma J122_step : forall c s t a s' e, J122 s t -> true = true -> step c s a = Some (s', e) -> J122 s' (t ++ e).
Proof.
  intros c s t a s' e (L & o & M & R) _ D. unfold J122. rewrite monitor_app, M. clear M. unfold step in D.
  destruct a.
  - destruct (s_app s); try discriminate. injection D as <- <-. pj. split; [exact L|]. exists None. subst o. split; reflexivity.
  - destruct (s_app s) as [| f | |]; try discriminate. destruct (s_lock s); [discriminate|]. injection D as <- <-. pj. subst o. split; [reflexivity|]. eexists. split; reflexivity.
  - destruct (s_app s) as [| | f l |] eqn:A; try discriminate. destruct l as [|i r].
    + injection D as <- <-. pj. subst o. split; [reflexivity|]. eexists. split; reflexivity.
    + destruct (visit c s f i) as [[[[s1 e1] x]|]|] eqn:V; injection D as <- <-; pj.
      * apply visit_ok in V. destruct V as (V1 & V2 & V3 & V4 & V5 & V6). split; [congruence|]. exists (Some (f, r)). subst o. cbn [monitor mstep]. rewrite Nat.eqb_refl, V5. cbn [andb]. rewrite V6, V3. split; reflexivity.
      * rewrite A. split; [exact L|]. eexists. split; [reflexivity | exact R].
      * split; [exact L|]. eexists. split; [reflexivity | exact I].
  - destruct (nth_error (s_thr s) w) as [[|]|]; try discriminate. destruct (nth_error (s_pend s) k) as [h|]; [|discriminate].
    destruct h as [i|i|i|i|i]; cases D; (split; [exact L|]); exists o; rewrite ?monitor_wire; (split; [reflexivity | exact R]).
  - assert (NL : s_lock s = false -> o = None /\ match s_app s with Visit _ _ | Stuck => False | _ => True end).
    { intro H. rewrite H in L. destruct (s_app s); try discriminate; auto. }
    destruct (nth_error (s_thr s) w) as [[[i|i|i|i|i]|]|]; try discriminate.
    + destruct (s_lock s) eqn:K; [discriminate|]. destruct (NL eq_refl) as [-> A]. destruct (existsb (Nat.eqb i) (s_pool s)) eqn:X; injection D as <- <-; pj.
      * split; [congruence|]. exists None. split; [reflexivity | exact R].
      * split; [congruence|]. exists None. cbn. rewrite X. split; [reflexivity | exact R].
    + injection D as <- <-. pj. split; [exact L|]. exists o. split; [reflexivity | exact R].
    + destruct (c_asks c && s_lock s); [discriminate|]. injection D as <- <-. pj. split; [exact L|]. exists o. split; [reflexivity | exact R].
    + destruct (l_starting (s_link s i)); [discriminate|]. destruct (shut s i) as [s1 e1] eqn:S. injection D as <- <-. pj. apply shut_ok in S. destruct S as (S1 & S2 & S3 & _ & S5).
      rewrite S1, S2, S3, S5. split; [exact L|]. exists o. split; [reflexivity | exact R].
    + destruct (s_lock s) eqn:K; [discriminate|]. destruct (NL eq_refl) as [-> A]. injection D as <- <-. pj. split; [congruence|]. exists None.
      destruct (existsb (Nat.eqb i) (s_pool s)) eqn:X; cbn; rewrite ?X, ?(filter_out _ _ X); (split; [reflexivity | exact R]).
  - destruct (l_writing (s_link s i)); [|discriminate]. injection D as <- <-. pj. split; [exact L|]. exists o. split; [reflexivity | exact R].
  - destruct (l_up (s_link s i) && negb (l_starting (s_link s i))); [|discriminate]. injection D as <- <-. pj. split; [exact L|]. exists o. split; [reflexivity | exact R].
  - injection D as <- <-. pj. split; [exact L|]. exists o. split; [reflexivity | exact R].
Qed.
Lemma J122_reach : forall c n l s t, run c (init n) l = Some (s, t) -> J122 s t.
Proof.
  intros c n l s t R. apply (run_inv c J122 (fun _ => true) (J122_step c) l (init n) [] s t); [|apply all_ok | exact R].
  split; [reflexivity|]. exists None. split; reflexivity.
Qed.
Theorem C122 : forall c n l s t, run c (init n) l = Some (s, t) -> monitor ([], None) t <> None.
Proof. intros c n l s t R. destruct (J122_reach _ _ _ _ _ R) as (_ & o & M & _). congruence. Qed.
Print Assumptions C122.

(** an accepted link is broadcast to while another one arrives; the latter has to wait *)
Definition c_app : cfg := mk_cfg 1 false true.
Definition l_two : list act := [PConnect 7; SPick 0 0; SGo 0; SGo 0; SGo 0; PConnect 9; SPick 1 1; SGo 1; ACall (CBroad true false 5); ALock; AStep; AStep; AStep].
Example C122_ex : exists s t, run c_app (init 2) l_two = Some (s, t) /\
  t = [EAdd 7; EUp 7; EAdd 9; EBegin (CBroad true false 5); EVisit 7 (RQueued 5); EVisit 9 (RQueued 5); EReturn].
Proof. do 2 eexists. split; vm_compute; reflexivity. Qed.

(** what a safe broadcast leaves out is not connected *)
Lemma missed_app : forall t1 t2 acc, missed_only_down acc (t1 ++ t2) = missed_only_down acc t1 && missed_only_down (acc ++ t1) t2.
Proof.
  induction t1 as [|e t1 IH]; intros t2 acc; cbn; [rewrite app_nil_r; reflexivity|]. rewrite IH, andb_assoc. do 2 f_equal. rewrite <- app_assoc. reflexivity.
Qed.
Definition call_safe (a : vis) : bool := match a with Wait (CBroad sf _ _) | Visit (CBroad sf _ _) _ => sf | _ => true end.
Definition J122m (s : st) (t : list ev) : Prop := call_safe (s_app s) = true /\ missed_only_down [] t = true /\ forall i, is_up i t = l_up (s_link s i).
Lemma is_up_app i t e : is_up i (t ++ e) = fold_left (ustep i) e (is_up i t).
Proof. apply fold_left_app. Qed.
Lemma up_wire i j ms b : fold_left (ustep i) (wire j ms) b = b.
Proof. destruct ms; reflexivity. Qed.
Lemma missed_wire acc j ms : missed_only_down acc (wire j ms) = true.
Proof. destruct ms; reflexivity. Qed.
Ltac upds i := repeat match goal with |- context [upd _ ?j _ i] => unfold upd; destruct (Nat.eqb_spec i j); [subst|] end.
Lemma J122m_step : forall c s t a s' e, J122m s t -> safe_only a = true -> step c s a = Some (s', e) -> J122m s' (t ++ e).
Proof.
  intros c s t a s' e (A & B & U) Q D. unfold J122m. rewrite missed_app, B. cbn [andb app].
  assert (SH : forall i s1 e1, shut s i = (s1, e1) -> s_app s1 = s_app s /\ missed_only_down (t ++ [EVisit i RShut]) e1 = true /\ missed_only_down t e1 = true /\ (forall j, fold_left (ustep j) e1 (is_up j t) = l_up (s_link s1 j))).
  { intros i s1 e1 S. unfold shut in S. destruct (l_up (s_link s i)) eqn:E; injection S as <- <-; pj; repeat split; auto. intro j. cbn. rewrite U. unfold upd. rewrite (Nat.eqb_sym j i). destruct (i =? j); reflexivity. }
  unfold step in D. destruct a.
  - destruct (s_app s); try discriminate. injection D as <- <-. pj. split; [destruct c0; auto|]. split; [reflexivity|]. intro i. rewrite app_nil_r. apply U.
  - destruct (s_app s) as [| f | |]; try discriminate. destruct (s_lock s); [discriminate|]. injection D as <- <-. pj. split; [exact A|]. split; [reflexivity|]. intro i. rewrite is_up_app. apply U.
  - destruct (s_app s) as [| | f l |] eqn:EA; try discriminate. destruct l as [|i r].
    + injection D as <- <-. pj. split; [reflexivity|]. split; [reflexivity|]. intro i. rewrite is_up_app. apply U.
    + unfold visit in D. destruct f as [|sf ov m|asks].
      * destruct (c_inline c).
        -- destruct (l_starting (s_link s i)).
           ++ injection D as <- <-. pj. rewrite EA. split; [exact A|]. split; [reflexivity|]. intro j. rewrite app_nil_r. apply U.
           ++ destruct (shut s i) as [s1 e1] eqn:S. injection D as <- <-. destruct (SH _ _ _ S) as (H1 & H2 & H3 & H4). pj. split; [reflexivity|]. split; [exact H2|]. intro j. rewrite is_up_app. cbn. apply H4.
        -- injection D as <- <-. pj. split; [reflexivity|]. split; [reflexivity|]. intro j. rewrite is_up_app. cbn. rewrite U. upds j; reflexivity.
      * destruct (ov || (length (l_buf (s_link s i)) <? c_limit c)).
        -- injection D as <- <-. pj. split; [exact A|]. split; [reflexivity|]. intro j. rewrite is_up_app. cbn. rewrite U. upds j; reflexivity.
        -- cbn in A. subst sf. cbn [andb] in D. destruct (l_up (s_link s i)) eqn:EU; injection D as <- <-; pj.
           ++ rewrite EA. split; [reflexivity|]. split; [reflexivity|]. intro j. rewrite app_nil_r. apply U.
           ++ split; [reflexivity|]. cbn. rewrite U, EU. split; [reflexivity|]. intro j. rewrite is_up_app. apply U.
      * destruct asks; injection D as <- <-; pj; (split; [reflexivity|]); (split; [reflexivity|]); intro j; rewrite is_up_app; apply U.
  - destruct (nth_error (s_thr s) w) as [[|]|]; try discriminate. destruct (nth_error (s_pend s) k) as [h|]; [|discriminate].
    destruct h as [i|i|i|i|i]; cases D; (split; [exact A|]); rewrite ?missed_wire; (split; [reflexivity|]); intro j; rewrite is_up_app, ?up_wire; cbn; rewrite U; upds j; try reflexivity; auto;
      try (match goal with E0 : _ = (_, _) |- _ => destruct (l_buf (s_link s i)); injection E0 as <- <-; cbn; congruence end).
  - destruct (nth_error (s_thr s) w) as [[[i|i|i|i|i]|]|]; try discriminate.
    + destruct (s_lock s); [discriminate|]. destruct (existsb (Nat.eqb i) (s_pool s)); injection D as <- <-; pj; (split; [exact A|]); (split; [reflexivity|]); intro j; rewrite is_up_app; cbn; rewrite U; [reflexivity|].
      rewrite (Nat.eqb_sym i j). unfold upd. destruct (j =? i); reflexivity.
    + injection D as <- <-. pj. split; [exact A|]. split; [reflexivity|]. intro j. rewrite is_up_app. cbn. rewrite U, (Nat.eqb_sym i j). unfold upd. destruct (j =? i); reflexivity.
    + destruct (c_asks c && s_lock s); [discriminate|]. injection D as <- <-. pj. split; [exact A|]. split; [reflexivity|]. intro j. rewrite is_up_app. cbn. rewrite U. upds j; reflexivity.
    + destruct (l_starting (s_link s i)); [discriminate|]. destruct (shut s i) as [s1 e1] eqn:S. injection D as <- <-. destruct (SH _ _ _ S) as (H1 & H2 & H3 & H4). pj. rewrite H1. split; [exact A|]. split; [exact H3|]. intro j. rewrite is_up_app. apply H4.
    + destruct (s_lock s); [discriminate|]. injection D as <- <-. pj. split; [exact A|]. destruct (existsb (Nat.eqb i) (s_pool s)); (split; [reflexivity|]); intro j; rewrite is_up_app; apply U.
  - destruct (l_writing (s_link s i)); [|discriminate]. injection D as <- <-. pj. split; [exact A|]. split; [reflexivity|]. intro j. rewrite is_up_app. cbn. rewrite U. upds j; reflexivity.
  - destruct (l_up (s_link s i) && negb (l_starting (s_link s i))); [|discriminate]. injection D as <- <-. pj. split; [exact A|]. split; [reflexivity|]. intro j. rewrite is_up_app. cbn. rewrite U. upds j; reflexivity.
  - injection D as <- <-. pj. split; [exact A|]. split; [reflexivity|]. intro j. rewrite is_up_app. apply U.
Qed.
Theorem C122_missed : forall c n l s t, forallb safe_only l = true -> run c (init n) l = Some (s, t) -> missed_only_down [] t = true.
Proof.
  intros c n l s t F R. apply (run_inv c J122m safe_only (J122m_step c) l (init n) [] s t); [|exact F | exact R]. repeat split.
Qed.
Print Assumptions C122_missed.
(** a link that is not started yet is left out once its buffer is full *)
Definition l_early : list act := [PConnect 7; SPick 0 0; SGo 0; ACall (CBroad true false 5); ALock; AStep; AStep; ACall (CBroad true false 6); ALock; AStep; AStep].
Example C122_missed_ex : exists s t, run c_app (init 1) l_early = Some (s, t) /\ forallb safe_only l_early = true /\
  t = [EAdd 7; EBegin (CBroad true false 5); EVisit 7 (RQueued 5); EReturn; EBegin (CBroad true false 6); EVisit 7 (RMissed 6); EReturn].
Proof. do 2 eexists. split; [vm_compute; reflexivity|]. split; vm_compute; reflexivity. Qed.

(** ** C123: what a link was given is handed over to the operating system in the same order, each message once *)
Definition J123 (s : st) (t : list ev) : Prop := forall i, wired i t ++ l_buf (s_link s i) = queued i t.
Lemma wired_app i t e : wired i (t ++ e) = fold_left (wstep i) e (wired i t).
Proof. apply fold_left_app. Qed.
Lemma queued_app i t e : queued i (t ++ e) = fold_left (qstep i) e (queued i t).
Proof. apply fold_left_app. Qed.
Lemma J123_wire : forall i j ms (q : list msg), fold_left (qstep i) (wire j ms) q = q /\ fold_left (wstep i) (wire j ms) q = if j =? i then q ++ ms else q.
Proof. intros i j [|m ms] q; cbn; [|auto]. split; [reflexivity|]. rewrite app_nil_r. destruct (j =? i); reflexivity. Qed.
Lemma J123_do_send : forall l l' ms, do_send l = (l', ms) -> ms ++ l_buf l' = l_buf l.
Proof. intros l l' ms H. unfold do_send in H. destruct (l_buf l); injection H as <- <-; cbn; rewrite ?app_nil_r; reflexivity. Qed.
Lemma J123_step : forall c s t a s' e, J123 s t -> true = true -> step c s a = Some (s', e) -> J123 s' (t ++ e).
Proof.
  intros c s t a s' e J _ D j. rewrite wired_app, queued_app. pose proof (J j) as Jj.
  assert (SH : forall i s1 e1, shut s i = (s1, e1) -> fold_left (wstep j) e1 (wired j t) ++ l_buf (s_link s1 j) = fold_left (qstep j) e1 (queued j t)).
  { intros i s1 e1 S. unfold shut in S. destruct (l_up (s_link s i)); injection S as <- <-; cbn; [|exact Jj]. upds j; exact Jj. }
  unfold step in D. destruct a.
  - destruct (s_app s); try discriminate. injection D as <- <-. exact Jj.
  - destruct (s_app s) as [| f | |]; try discriminate. destruct (s_lock s); [discriminate|]. injection D as <- <-. exact Jj.
  - destruct (s_app s) as [| | f l |]; try discriminate. destruct l as [|i r]; [injection D as <- <-; exact Jj|].
    unfold visit in D. destruct f as [|sf ov m|asks].
    + destruct (c_inline c).
      * destruct (l_starting (s_link s i)); [injection D as <- <-; exact Jj|]. destruct (shut s i) as [s1 e1] eqn:S. injection D as <- <-. pj. exact (SH _ _ _ S).
      * injection D as <- <-. pj. upds j; exact Jj.
    + destruct (ov || (length (l_buf (s_link s i)) <? c_limit c)); [|destruct (sf && l_up (s_link s i))]; injection D as <- <-; pj; try exact Jj.
      cbn. rewrite (Nat.eqb_sym i j). unfold upd. destruct (Nat.eqb_spec j i); [subst | exact Jj]. cbn. rewrite app_assoc, Jj. reflexivity.
    + destruct asks; injection D as <- <-; exact Jj.
  - destruct (nth_error (s_thr s) w) as [[|]|]; try discriminate. destruct (nth_error (s_pend s) k) as [h|]; [|discriminate].
    assert (DS : forall i l' ms, do_send (s_link s i) = (l', ms) -> fold_left (wstep j) (wire i ms) (wired j t) ++ l_buf (upd (s_link s) i l' j) = fold_left (qstep j) (wire i ms) (queued j t)).
    { intros i l' ms E. destruct (J123_wire j i ms (wired j t)) as [_ ->]. destruct (J123_wire j i ms (queued j t)) as [-> _]. rewrite (Nat.eqb_sym i j).
      unfold upd. destruct (Nat.eqb_spec j i); [subst; rewrite <- app_assoc, (J123_do_send _ _ _ E)|]; exact Jj. }
    destruct h as [i|i|i|i|i].
    + destruct (l_sending (s_link s i)); [injection D as <- <-; exact Jj|]. destruct (do_send (s_link s i)) as [l' ms] eqn:E. injection D as <- <-. pj. exact (DS _ _ _ E).
    + destruct (l_up (s_link s i)).
      * destruct (do_send (s_link s i)) as [l' ms] eqn:E. injection D as <- <-. pj. exact (DS _ _ _ E).
      * injection D as <- <-. pj. upds j; exact Jj.
    + injection D as <- <-. exact Jj.
    + injection D as <- <-. exact Jj.
    + injection D as <- <-. exact Jj.
  - destruct (nth_error (s_thr s) w) as [[[i|i|i|i|i]|]|]; try discriminate.
    + destruct (s_lock s); [discriminate|]. destruct (existsb (Nat.eqb i) (s_pool s)); injection D as <- <-; pj; [exact Jj|].
      cbn. rewrite (Nat.eqb_sym i j). unfold upd. destruct (Nat.eqb_spec j i); [reflexivity | exact Jj].
    + injection D as <- <-. pj. cbn. upds j; exact Jj.
    + destruct (c_asks c && s_lock s); [discriminate|]. injection D as <- <-. pj. upds j; exact Jj.
    + destruct (l_starting (s_link s i)); [discriminate|]. destruct (shut s i) as [s1 e1] eqn:S. injection D as <- <-. pj. exact (SH _ _ _ S).
    + destruct (s_lock s); [discriminate|]. injection D as <- <-. pj. destruct (existsb (Nat.eqb i) (s_pool s)); exact Jj.
  - destruct (l_writing (s_link s i)); [|discriminate]. injection D as <- <-. pj. upds j; exact Jj.
  - destruct (l_up (s_link s i) && negb (l_starting (s_link s i))); [|discriminate]. injection D as <- <-. pj. upds j; exact Jj.
  - injection D as <- <-. exact Jj.
Qed.
Theorem C123 : forall c n l s t i, run c (init n) l = Some (s, t) -> exists rest, wired i t ++ rest = queued i t.
Proof.
  intros c n l s t i R. exists (l_buf (s_link s i)). revert i. apply (run_inv c J123 (fun _ => true) (J123_step c) l (init n) [] s t); [|apply all_ok | exact R]. intro i. reflexivity.
Qed.
Print Assumptions C123.

(** ** what keeps sending going *)
Record J121 (c : cfg) (s : st) : Prop := mk_J121 {
  j_sending : forall i, l_sending (s_link s i) = true -> l_writing (s_link s i) = true \/ In (HSent i) (s_pend s);
  j_buf : forall i, l_up (s_link s i) = true -> l_starting (s_link s i) = false -> l_buf (s_link s i) <> [] -> l_sending (s_link s i) = true \/ In (HSend i) (s_pend s);
  j_starting : forall i, l_starting (s_link s i) = true -> exists w, nth_error (s_thr s) w = Some (Some (WConnect i));
  j_lock : s_lock s = match s_app s with Visit _ _ | Stuck => true | _ => false end
}.
Lemma in_del_neq {A} : forall (l : list A) k h x, nth_error l k = Some h -> In x l -> x <> h -> In x (del_nth k l).
Proof. intros l k h x H I N. destruct (in_del _ _ _ _ H I); [congruence | assumption]. Qed.
(** changing one link, adding handlers, changing threads but not those in on_connect of a starting link *)
Lemma J121_put : forall c s i l more, J121 c s ->
  (l_sending l = true -> l_writing l = true \/ In (HSent i) (s_pend s ++ more)) ->
  (l_up l = true -> l_starting l = false -> l_buf l <> [] -> l_sending l = true \/ In (HSend i) (s_pend s ++ more)) ->
  (l_starting l = true -> exists w, nth_error (s_thr s) w = Some (Some (WConnect i))) -> J121 c (put s i l more).
Proof.
  intros c s i l more [A B C L] H1 H2 H3. constructor; pj; [| | |exact L]; intros j; unfold upd; destruct (Nat.eqb_spec j i); subst; auto.
  - intro H. destruct (A j H); [left | right; apply in_or_app; left]; assumption.
  - intros X Y Z. destruct (B j X Y Z); [left | right; apply in_or_app; left]; assumption.
Qed.
Lemma J121_thr : forall c s w o o', J121 c s -> nth_error (s_thr s) w = Some o' -> (forall i, o' = Some (WConnect i) -> o = Some (WConnect i)) -> J121 c (with_thr s w o).
Proof.
  intros c s w o o' [A B C L] T H. constructor; pj; auto. intros i S. destruct (C i S) as [v V]. exists v. destruct (Nat.eq_dec v w) as [->|N].
  - rewrite (set_nth_eq _ _ _ _ T). f_equal. apply H. congruence.
  - rewrite set_nth_neq by assumption. exact V.
Qed.
Lemma J121_pend : forall c s pend, J121 c s -> (forall i, l_sending (s_link s i) = true -> l_writing (s_link s i) = true \/ In (HSent i) pend) ->
  (forall i, l_up (s_link s i) = true -> l_starting (s_link s i) = false -> l_buf (s_link s i) <> [] -> l_sending (s_link s i) = true \/ In (HSend i) pend) ->
  J121 c (mk_st (s_lock s) (s_app s) (s_pool s) (s_link s) pend (s_thr s)).
Proof. intros c s pend [A B C L] H1 H2. constructor; pj; auto. Qed.
Lemma J121_shut : forall c s i s' e, J121 c s -> shut s i = (s', e) -> J121 c s'.
Proof.
  intros c s i s' e J S. unfold shut in S. destruct (l_up (s_link s i)); injection S as <- <-; [|exact J].
  apply J121_put; pj; [exact J | | discriminate | apply (j_starting c s J)].
  intro H. destruct (j_sending c s J i H); [left | right; apply in_or_app; left]; assumption.
Qed.
Lemma J121_app : forall c s a, J121 c s -> s_lock s = match a with Visit _ _ | Stuck => true | _ => false end -> J121 c (with_app s a).
Proof. intros c s a [A B C L] H. constructor; pj; auto. Qed.
Lemma do_send_sends : forall l l' ms, do_send l = (l', ms) -> l_buf l' = [] /\ (l_sending l' = true -> l_writing l' = true) /\ l_starting l' = l_starting l /\ l_up l' = l_up l.
Proof. intros l l' ms H. unfold do_send in H. destruct (l_buf l); injection H as <- <-; auto. Qed.
Lemma J121_visit : forall c s f i s' e x, J121 c s -> visit c s f i = Some (Some (s', e, x)) -> J121 c s'.
Proof.
  intros c s f i s' e x J V. unfold visit in V. destruct f as [|sf ov m|asks].
  - destruct (c_inline c).
    + destruct (l_starting (s_link s i)); [discriminate|]. destruct (shut s i) as [s1 e1] eqn:S. injection V as <- <- <-. exact (J121_shut _ _ _ _ _ J S).
    + injection V as <- <- <-. apply J121_put; [exact J | | | apply (j_starting c s J)].
      * intro H. destruct (j_sending c s J i H); [left | right; apply in_or_app; left]; assumption.
      * intros X Y Z. destruct (j_buf c s J i X Y Z); [left | right; apply in_or_app; left]; assumption.
  - destruct (ov || (length (l_buf (s_link s i)) <? c_limit c)); [|destruct (sf && l_up (s_link s i)); [discriminate|]]; injection V as <- <- <-; [|exact J].
    apply J121_put; pj; [exact J | | | apply (j_starting c s J)].
    + intro H. destruct (j_sending c s J i H); [left | right; apply in_or_app; left]; assumption.
    + intros X Y Z. unfold starts_sending. rewrite X. destruct (l_sending (s_link s i)); [left; reflexivity | right; apply in_or_app; right; left; reflexivity].
  - destruct asks; [discriminate|]. injection V as <- <- <-. exact J.
Qed.
Lemma J121_step : forall c s (t : list ev) a s' e, J121 c s -> true = true -> step c s a = Some (s', e) -> J121 c s'.
Proof.
  intros c s t a s' e J _ D. unfold step in D. destruct a.
  - destruct (s_app s) eqn:A; try discriminate. injection D as <- <-. apply J121_app; [exact J|]. rewrite (j_lock c s J), A. reflexivity.
  - destruct (s_app s) as [| f | |] eqn:A; try discriminate. destruct (s_lock s); [discriminate|]. injection D as <- <-. destruct J as [J1 J2 J3 J4]. constructor; pj; auto.
  - destruct (s_app s) as [| | f l |] eqn:A; try discriminate. destruct l as [|i r].
    + injection D as <- <-. destruct J as [J1 J2 J3 J4]. constructor; pj; auto.
    + destruct (visit c s f i) as [[[[s1 e1] x]|]|] eqn:V; injection D as <- <-.
      * pose proof (J121_visit _ _ _ _ _ _ _ J V) as J'. apply J121_app; [exact J'|]. apply visit_ok in V. destruct V as (V1 & _). rewrite V1, (j_lock c s J), A. reflexivity.
      * exact J.
      * apply J121_app; [exact J|]. rewrite (j_lock c s J), A. reflexivity.
  - destruct (nth_error (s_thr s) w) as [[|]|] eqn:T; try discriminate. destruct (nth_error (s_pend s) k) as [h|] eqn:P; [|discriminate].
    assert (NS : forall i, h <> HSent i -> l_sending (s_link s i) = true -> l_writing (s_link s i) = true \/ In (HSent i) (del_nth k (s_pend s))).
    { intros i N H. destruct (j_sending c s J i H) as [Q|Q]; [left; exact Q | right; apply (in_del_neq _ _ _ _ P Q); congruence]. }
    assert (NB : forall i, h <> HSend i -> l_up (s_link s i) = true -> l_starting (s_link s i) = false -> l_buf (s_link s i) <> [] -> l_sending (s_link s i) = true \/ In (HSend i) (del_nth k (s_pend s))).
    { intros i N X Y Z. destruct (j_buf c s J i X Y Z) as [Q|Q]; [left; exact Q | right; apply (in_del_neq _ _ _ _ P Q); congruence]. }
    assert (PU : forall i l', (forall j, j <> i -> h <> HSend j /\ h <> HSent j) -> (l_sending l' = true -> l_writing l' = true) -> (l_up l' = true -> l_buf l' <> [] -> l_sending l' = true) -> l_starting l' = l_starting (s_link s i) ->
       J121 c (put (mk_st (s_lock s) (s_app s) (s_pool s) (s_link s) (del_nth k (s_pend s)) (s_thr s)) i l' [])).
    { intros i l' O H1 H2 H3. destruct J as [J1 J2 J3 J4]. constructor; pj; [| | |exact J4]; intros j; rewrite ?app_nil_r; unfold upd; destruct (Nat.eqb_spec j i) as [->|N]; intros; auto.
      - apply NS; [apply (O j N) | assumption].
      - apply NB; [apply (O j N) | assumption..].
      - apply J3. congruence. }
    assert (OT : forall o, (forall j, h <> HSend j /\ h <> HSent j) -> J121 c (with_thr (mk_st (s_lock s) (s_app s) (s_pool s) (s_link s) (del_nth k (s_pend s)) (s_thr s)) w o)).
    { intros o O. apply J121_thr with (o' := None); [|exact T | discriminate]. apply J121_pend; [exact J | |]; intro i; [apply NS | apply NB]; apply O. }
    destruct h as [i|i|i|i|i].
    + destruct (l_sending (s_link s i)) eqn:S.
      * injection D as <- <-. apply J121_pend; [exact J | |]; intro j; [apply NS; discriminate|]. destruct (Nat.eq_dec j i) as [->|N]; [auto | apply NB; congruence].
      * destruct (do_send (s_link s i)) as [l' ms] eqn:E. injection D as <- <-. destruct (do_send_sends _ _ _ E) as (E1 & E2 & E3 & E4). apply PU; [intros j N; split; congruence | exact E2 | intros _ H; congruence | exact E3].
    + destruct (l_up (s_link s i)) eqn:Up.
      * destruct (do_send (s_link s i)) as [l' ms] eqn:E. injection D as <- <-. destruct (do_send_sends _ _ _ E) as (E1 & E2 & E3 & E4). apply PU; [intros j N; split; congruence | exact E2 | intros _ H; congruence | exact E3].
      * injection D as <- <-. apply PU; pj; [intros j N; split; congruence | discriminate | discriminate | reflexivity].
    + injection D as <- <-. apply OT. split; discriminate.
    + injection D as <- <-. apply OT. split; discriminate.
    + injection D as <- <-. apply OT. split; discriminate.
  - destruct (nth_error (s_thr s) w) as [[[i|i|i|i|i]|]|] eqn:T; try discriminate.
    + destruct (s_lock s) eqn:K; [discriminate|]. destruct (existsb (Nat.eqb i) (s_pool s)); injection D as <- <-.
      * apply (J121_thr _ _ _ _ _ J T). discriminate.
      * apply J121_thr with (o' := Some (WAdd i)); [|exact T | discriminate]. destruct J as [J1 J2 J3 J4]. constructor; pj; [| | |congruence]; intros j; unfold upd; destruct (Nat.eqb_spec j i) as [->|N]; pj; try discriminate; auto.
    + injection D as <- <-. pose proof J as [J1 J2 J3 J4]. constructor; pj; [| | |exact J4]; intros j; rewrite ?app_nil_r; unfold upd; destruct (Nat.eqb_spec j i) as [->|N]; pj; auto; try discriminate.
      * intros _. exists w. apply (set_nth_eq _ _ _ _ T).
      * intro S. destruct (J3 j S) as [v V]. exists v. destruct (Nat.eq_dec v w) as [->|N2]; [congruence|]. rewrite set_nth_neq by assumption. exact V.
    + destruct (c_asks c && s_lock s); [discriminate|]. injection D as <- <-. pose proof J as [J1 J2 J3 J4]. constructor; pj; [| | |exact J4]; intros j; unfold upd; destruct (Nat.eqb_spec j i) as [->|N]; pj; try discriminate.
      * intro H. destruct (J1 i H); [left | right; apply in_or_app; left]; assumption.
      * intro H. destruct (J1 j H); [left | right; apply in_or_app; left]; assumption.
      * intros X _ _. unfold starts_sending. rewrite X. destruct (l_sending (s_link s i)); [left; reflexivity | right; apply in_or_app; right; left; reflexivity].
      * intros X Y Z. destruct (J2 j X Y Z); [left | right; apply in_or_app; left]; assumption.
      * intro S. destruct (J3 j S) as [v V]. exists v. destruct (Nat.eq_dec v w) as [->|N2]; [congruence|]. rewrite set_nth_neq by assumption. exact V.
    + destruct (l_starting (s_link s i)); [discriminate|]. destruct (shut s i) as [s1 e1] eqn:S. injection D as <- <-. refine (J121_thr _ _ _ _ (Some (WShut i)) (J121_shut _ _ _ _ _ J S) _ _); [|discriminate].
      apply shut_ok in S. destruct S as (_ & _ & _ & S & _). rewrite S. exact T.
    + destruct (s_lock s) eqn:K; [discriminate|]. injection D as <- <-. apply J121_thr with (o' := Some (WDel i)); [|exact T | discriminate]. destruct J as [J1 J2 J3 J4]. constructor; pj; auto. congruence.
  - destruct (l_writing (s_link s i)); [|discriminate]. injection D as <- <-. apply J121_put; pj; [exact J | | | apply (j_starting c s J)].
    + intros _. right. apply in_or_app. right. left. reflexivity.
    + intros X Y Z. destruct (j_buf c s J i X Y Z); [left | right; apply in_or_app; left]; assumption.
  - destruct (l_up (s_link s i) && negb (l_starting (s_link s i))); [|discriminate]. injection D as <- <-. apply J121_put; [exact J | | | apply (j_starting c s J)].
    + intro H. destruct (j_sending c s J i H); [left | right; apply in_or_app; left]; assumption.
    + intros X Y Z. destruct (j_buf c s J i X Y Z); [left | right; apply in_or_app; left]; assumption.
  - injection D as <- <-. apply J121_pend; [exact J | |]; intro j.
    + intro H. destruct (j_sending c s J j H); [left | right; apply in_or_app; left]; assumption.
    + intros X Y Z. destruct (j_buf c s J j X Y Z); [left | right; apply in_or_app; left]; assumption.
Qed.
Lemma J121_reach : forall c n l s t, run c (init n) l = Some (s, t) -> J121 c s.
Proof.
  intros c n l s t R. apply (run_inv c (fun s _ => J121 c s) (fun _ => true) (J121_step c) l (init n) [] s t); [|apply all_ok | exact R].
  constructor; cbn; try discriminate; try reflexivity; congruence.
Qed.
Lemma J121_run : forall c l s s' t, J121 c s -> run c s l = Some (s', t) -> J121 c s'.
Proof. intros c l s s' t J R. exact (run_inv c (fun s _ => J121 c s) (fun _ => true) (J121_step c) l s [] s' t J (all_ok l) R). Qed.

(** [goes_on c s s']: steps of the library (and peers that read) lead from s to s' *)
Definition goes_on (c : cfg) (s s' : st) : Prop := exists l t, forallb library l = true /\ run c s l = Some (s', t).
Lemma goes_refl c s : goes_on c s s.
Proof. exists [], []. split; reflexivity. Qed.
Lemma goes_trans c s1 s2 s3 : goes_on c s1 s2 -> goes_on c s2 s3 -> goes_on c s1 s3.
Proof.
  intros (l1 & t1 & F1 & R1) (l2 & t2 & F2 & R2). exists (l1 ++ l2), (t1 ++ t2). rewrite forallb_app, F1, F2, run_app, R1, R2. split; reflexivity.
Qed.
Lemma goes_step c s a s' e : library a = true -> step c s a = Some (s', e) -> goes_on c s s'.
Proof. intros F D. exists [a], (e ++ []). cbn [forallb run]. rewrite F, D. split; reflexivity. Qed.
Lemma goes_J121 c s s' : J121 c s -> goes_on c s s' -> J121 c s'.
Proof. intros J (l & t & _ & R). exact (J121_run _ _ _ _ _ J R). Qed.

Lemma set_nth_free : forall l w, free_thread (mk_st false Idle [] (fun _ => link0) [] l) = true -> free_thread (mk_st false Idle [] (fun _ => link0) [] (set_nth w None l)) = true.
Proof.
  unfold free_thread. cbn [s_thr]. induction l as [|o l IH]; intros [|w]; cbn; intro H; try reflexivity; auto. apply orb_prop in H. destruct H as [H|H]; [rewrite H; reflexivity|]. rewrite (IH w H). apply orb_true_r.
Qed.
Lemma free_nth : forall s, free_thread s = true -> exists w, nth_error (s_thr s) w = Some None.
Proof.
  intros s. unfold free_thread. generalize (s_thr s). induction l as [|o l IH]; cbn; intro H; [discriminate|]. apply orb_prop in H. destruct H as [H|H].
  - exists 0. destruct o; [discriminate | reflexivity].
  - destruct (IH H) as [w W]. exists (S w). exact W.
Qed.
(** a link in on_connect gets out of it when on_connect does not ask the pool *)
Lemma connects : forall c s i, J121 c s -> c_asks c = false ->
  exists s', goes_on c s s' /\ l_starting (s_link s' i) = false /\ l_up (s_link s' i) = l_up (s_link s i) /\ s_app s' = s_app s /\ (free_thread s = true -> free_thread s' = true) /\ l_buf (s_link s' i) = l_buf (s_link s i).
Proof.
  intros c s i J N. destruct (l_starting (s_link s i)) eqn:S.
  - destruct (j_starting c s J i S) as [w W]. eexists. split; [eapply (goes_step c s (SGo w)); [reflexivity|]; unfold step; rewrite W, N; reflexivity|]. pj. rewrite upd_eq. pj. repeat split.
    intro F. apply (set_nth_free (s_thr s) w F).
  - exists s. split; [apply goes_refl|]. auto.
Qed.
(** the buffer of a connected link gets empty when a service thread is free *)
Lemma drains : forall c s i, J121 c s -> l_up (s_link s i) = true -> l_starting (s_link s i) = false -> free_thread s = true ->
  exists s', goes_on c s s' /\ l_buf (s_link s' i) = [] /\ s_app s' = s_app s /\ s_thr s' = s_thr s.
Proof.
  intros c s i J U S F. destruct (l_buf (s_link s i)) as [|m b] eqn:B; [exists s; split; [apply goes_refl | auto]|].
  destruct (free_nth s F) as [w W].
  assert (SENT : forall s, l_up (s_link s i) = true -> nth_error (s_thr s) w = Some None -> In (HSent i) (s_pend s) -> exists s', goes_on c s s' /\ l_buf (s_link s' i) = [] /\ s_app s' = s_app s /\ s_thr s' = s_thr s).
  { clear. intros s U W I. apply In_nth_error in I. destruct I as [k K]. destruct (do_send (s_link s i)) as [l' ms] eqn:E. destruct (do_send_sends _ _ _ E) as (E1 & _).
    eexists. split; [eapply (goes_step c s (SPick w k)); [reflexivity|]; unfold step; rewrite W, K, U, E; reflexivity|]. pj. rewrite upd_eq. auto. }
  destruct (j_buf c s J i U S) as [Q|Q]; [congruence | |].
  - destruct (j_sending c s J i Q) as [R|R]; [|exact (SENT s U W R)].
    assert (D : step c s (PWrote i) = Some (put s i (mk_link (l_up (s_link s i)) (l_starting (s_link s i)) (l_buf (s_link s i)) (l_sending (s_link s i)) false) [HSent i], [])) by (unfold step; rewrite R; reflexivity).
    edestruct (SENT (put s i (mk_link (l_up (s_link s i)) (l_starting (s_link s i)) (l_buf (s_link s i)) (l_sending (s_link s i)) false) [HSent i])) as (s' & G & H); pj.
    + rewrite upd_eq. exact U.
    + exact W.
    + apply in_or_app. right. left. reflexivity.
    + exists s'. split; [exact (goes_trans _ _ _ _ (goes_step c s (PWrote i) _ _ eq_refl D) G) | exact H].
  - destruct (l_sending (s_link s i)) eqn:X.
    + destruct (j_sending c s J i X) as [R|R]; [|exact (SENT s U W R)].
      assert (D : step c s (PWrote i) = Some (put s i (mk_link (l_up (s_link s i)) (l_starting (s_link s i)) (l_buf (s_link s i)) (l_sending (s_link s i)) false) [HSent i], [])) by (unfold step; rewrite R; reflexivity).
      edestruct (SENT (put s i (mk_link (l_up (s_link s i)) (l_starting (s_link s i)) (l_buf (s_link s i)) (l_sending (s_link s i)) false) [HSent i])) as (s' & G & H); pj.
      * rewrite upd_eq. exact U.
      * exact W.
      * apply in_or_app. right. left. reflexivity.
      * exists s'. split; [exact (goes_trans _ _ _ _ (goes_step c s (PWrote i) _ _ eq_refl D) G) | exact H].
    + apply In_nth_error in Q. destruct Q as [k K]. destruct (do_send (s_link s i)) as [l' ms] eqn:E. destruct (do_send_sends _ _ _ E) as (E1 & _).
      eexists. split; [eapply (goes_step c s (SPick w k)); [reflexivity|]; unfold step; rewrite W, K, X, E; reflexivity|]. pj. rewrite upd_eq. auto.
Qed.
Definition harmless (c : cfg) (f : call) (s : st) : Prop :=
  match f with
  | CShut => c_inline c && c_asks c = false
  | CVisit asks => asks = false
  | CBroad safe ovf _ => safe = false \/ ovf = true \/ (c_asks c = false /\ 0 < c_limit c /\ free_thread s = true)
  end.
Lemma one_more : forall c s f i r, J121 c s -> s_app s = Visit f (i :: r) -> harmless c f s -> exists s', goes_on c s s' /\ s_app s' = Visit f r /\ harmless c f s'.
Proof.
  intros c s f i r J A H.
  assert (STEP : forall s s1 e x, s_app s = Visit f (i :: r) -> visit c s f i = Some (Some (s1, e, x)) -> harmless c f s -> exists s', goes_on c s s' /\ s_app s' = Visit f r /\ harmless c f s').
  { clear. intros s s1 e x A V H. exists (with_app s1 (Visit f r)). split; [|split; [reflexivity|]].
    - apply (goes_step c s AStep _ (EVisit i x :: e)); [reflexivity|]. unfold step. rewrite A, V. reflexivity.
    - apply visit_ok in V. destruct V as (_ & _ & _ & V & _). destruct f; cbn in *; try exact H. unfold free_thread in *. pj. rewrite V. exact H. }
  destruct f as [|sf ov m|asks].
  - destruct (c_inline c) eqn:I.
    + cbn in H. rewrite I in H. cbn in H. destruct (connects c s i J H) as (s1 & G & S & _ & A1 & _). rewrite A in A1. destruct (shut s1 i) as [s2 e] eqn:E.
      destruct (STEP s1 s2 e RShut A1) as (s' & G' & R); [unfold visit; rewrite I, S, E; reflexivity | cbn; rewrite I; exact H |]. exists s'. split; [exact (goes_trans _ _ _ _ G G') | exact R].
    + eapply STEP; [exact A | unfold visit; rewrite I; reflexivity | exact H].
  - destruct (ov || (length (l_buf (s_link s i)) <? c_limit c)) eqn:O; [eapply STEP; [exact A | unfold visit; rewrite O; reflexivity | exact H]|].
    destruct (sf && l_up (s_link s i)) eqn:U; [|eapply STEP; [exact A | unfold visit; rewrite O, U; reflexivity | exact H]].
    apply andb_prop in U. destruct U as [-> U]. apply orb_false_elim in O. destruct O as [-> O]. destruct H as [H|[H|(H1 & H2 & H3)]]; try discriminate.
    destruct (connects c s i J H1) as (s1 & G1 & S1 & U1 & A1 & F1 & _). specialize (F1 H3). rewrite U in U1. rewrite A in A1.
    destruct (drains c s1 i (goes_J121 _ _ _ J G1) U1 S1 F1) as (s2 & G2 & B2 & A2 & T2). rewrite A1 in A2.
    edestruct (STEP s2) as (s' & G' & R); [exact A2 | unfold visit; rewrite B2; apply Nat.ltb_lt in H2; cbn [length orb]; rewrite H2; reflexivity | right; right; unfold free_thread in *; rewrite T2; auto |].
    exists s'. split; [exact (goes_trans _ _ _ _ (goes_trans _ _ _ _ G1 G2) G') | exact R].
  - cbn in H. subst asks. eapply STEP; [exact A | reflexivity | reflexivity].
Qed.
Lemma returns : forall c f r s, J121 c s -> s_app s = Visit f r -> harmless c f s -> exists l s' t, forallb library l = true /\ run c s l = Some (s', t) /\ In EReturn t.
Proof.
  intros c f. induction r as [|i r IH]; intros s J A H.
  - do 3 eexists. split; [|split].
    + instantiate (1 := [AStep]). reflexivity.
    + cbn. rewrite A. reflexivity.
    + left. reflexivity.
  - destruct (one_more c s f i r J A H) as (s1 & G & A1 & H1). destruct (IH s1 (goes_J121 _ _ _ J G) A1 H1) as (l & s' & t & F & R & I). destruct G as (l0 & t0 & F0 & R0).
    exists (l0 ++ l), s', (t0 ++ t). rewrite forallb_app, F0, F, run_app, R0, R. repeat split. apply in_or_app. right. exact I.
Qed.
Definition busy (f : call) (s : st) : Prop := s_app s = Wait f \/ exists r, s_app s = Visit f r.
Lemma returns_busy : forall c f s, J121 c s -> busy f s -> harmless c f s -> exists l s' t, forallb library l = true /\ run c s l = Some (s', t) /\ In EReturn t.
Proof.
  intros c f s J [A|[r A]] H; [|exact (returns c f r s J A H)].
  assert (L : s_lock s = false) by (rewrite (j_lock c s J), A; reflexivity).
  assert (D : step c s ALock = Some (mk_st true (Visit f (s_pool s)) (s_pool s) (s_link s) (s_pend s) (s_thr s), [EBegin f])) by (unfold step; rewrite A, L; reflexivity).
  destruct (returns c f (s_pool s) _ (J121_step c s [] ALock _ _ J eq_refl D) eq_refl) as (l & s' & t & F & R & I).
  - destruct f; exact H.
  - exists (ALock :: l), s', ([EBegin f] ++ t). cbn [forallb run]. rewrite D, R. repeat split; [exact F | right; exact I].
Qed.

(** ** C120: functions that visit all objects return: shutting all links down, predicates of the application *)
Definition C120_statement : Prop := forall c n l s t f, run c (init n) l = Some (s, t) -> busy f s ->
  match f with CBroad safe _ _ => safe = false | _ => True end ->
  exists l' s' t', forallb library l' = true /\ run c s l' = Some (s', t') /\ In EReturn t'.
(** they do where the function is called by a thread of the application or on_connect does not ask the pool, and predicates of the application
    do not ask the pool *)
Theorem C120_partial : forall c n l s t f, run c (init n) l = Some (s, t) -> busy f s ->
  match f with CShut => c_inline c = false \/ c_asks c = false | CBroad safe _ _ => safe = false | CVisit asks => asks = false end ->
  exists l' s' t', forallb library l' = true /\ run c s l' = Some (s', t') /\ In EReturn t'.
Proof.
  intros c n l s t f R B H. apply (returns_busy c f s (J121_reach _ _ _ _ _ R) B). destruct f as [|sf ov m|asks]; cbn; auto. destruct H as [-> | ->]; [reflexivity | apply andb_false_r].
Qed.
Print Assumptions C120_partial.
(** a link is in on_connect when a service thread shuts all links down *)
Definition l_meet : list act := [PConnect 7; SPick 0 0; SGo 0; SGo 0; ACall CShut; ALock].
Example C120_ex : exists s t, run (mk_cfg 1 true false) (init 1) l_meet = Some (s, t) /\ busy CShut s /\ l_starting (s_link s 7) = true /\ t = [EAdd 7; EUp 7; EBegin CShut].
Proof. do 2 eexists. split; [vm_compute; reflexivity|]. repeat split. right. eexists. reflexivity. Qed.

(** where on_connect asks the pool, the two wait for each other for good, whatever anybody does *)
Definition dead120 (i : nat) (s : st) : Prop := s_lock s = true /\ (exists r, s_app s = Visit CShut (i :: r)) /\ l_starting (s_link s i) = true.
Lemma dead120_step : forall c i s (t : list ev) a s' e, c_inline c = true -> c_asks c = true -> dead120 i s -> step c s a = Some (s', e) -> dead120 i s' /\ ~ In EReturn e.
Proof.
  intros c i s t a s' e CI CA (L & [r A] & S) D. unfold step in D. destruct a.
  - rewrite A in D. discriminate.
  - rewrite A in D. discriminate.
  - rewrite A in D. unfold visit in D. rewrite CI, S in D. injection D as <- <-. split; [split; [exact L | split; [exists r; exact A | exact S]] | intros []].
  - destruct (nth_error (s_thr s) w) as [[|]|]; try discriminate. destruct (nth_error (s_pend s) k) as [h|]; [|discriminate].
    assert (DS : forall j l' ms, do_send (s_link s j) = (l', ms) -> l_starting (upd (s_link s) j l' i) = true).
    { intros j l' ms E. destruct (do_send_sends _ _ _ E) as (_ & _ & E3 & _). unfold upd. destruct (Nat.eqb_spec i j); [subst; congruence | exact S]. }
    assert (W : forall j ms, ~ In EReturn (wire j ms)) by (intros j [|m ms]; cbn; [tauto | intros [H|[]]; discriminate]).
    destruct h as [j|j|j|j|j].
    + destruct (l_sending (s_link s j)); [|destruct (do_send (s_link s j)) as [l' ms] eqn:E]; injection D as <- <-; unfold dead120; pj; (split; [|auto]); eauto.
    + destruct (l_up (s_link s j)).
      * destruct (do_send (s_link s j)) as [l' ms] eqn:E. injection D as <- <-. unfold dead120. pj. split; [|auto]. eauto.
      * injection D as <- <-. unfold dead120. pj. split; [|auto]. split; [exact L|]. split; [exists r; exact A|]. unfold upd. destruct (Nat.eqb_spec i j); [subst; exact S | exact S].
    + injection D as <- <-. split; [|intros []]. unfold dead120. pj. eauto.
    + injection D as <- <-. split; [|intros []]. unfold dead120. pj. eauto.
    + injection D as <- <-. split; [|intros []]. unfold dead120. pj. eauto.
  - destruct (nth_error (s_thr s) w) as [[[j|j|j|j|j]|]|]; try discriminate.
    + rewrite L in D. discriminate.
    + injection D as <- <-. unfold dead120. pj. split; [|intros [H|[]]; discriminate]. split; [exact L|]. split; [exists r; exact A|]. unfold upd. destruct (i =? j); [reflexivity | exact S].
    + rewrite L, CA in D. discriminate.
    + destruct (l_starting (s_link s j)) eqn:SJ; [discriminate|]. assert (i <> j) by congruence. unfold shut in D. destruct (l_up (s_link s j)); injection D as <- <-; unfold dead120; pj.
      * rewrite upd_neq by assumption. split; [eauto | intros [Q|[]]; discriminate].
      * split; [eauto | intros []].
    + rewrite L in D. discriminate.
  - destruct (l_writing (s_link s i0)); [|discriminate]. injection D as <- <-. split; [|intros []]. unfold dead120. pj. split; [exact L|]. split; [exists r; exact A|]. unfold upd. destruct (Nat.eqb_spec i i0); [subst; exact S | exact S].
  - destruct (l_up (s_link s i0) && negb (l_starting (s_link s i0))); [|discriminate]. injection D as <- <-. split; [|intros []]. unfold dead120. pj. split; [exact L|]. split; [exists r; exact A|]. unfold upd. destruct (Nat.eqb_spec i i0); [subst; exact S | exact S].
  - injection D as <- <-. split; [|intros []]. unfold dead120. pj. eauto.
Qed.
Lemma dead120_run : forall c i, c_inline c = true -> c_asks c = true -> forall l s s' t, dead120 i s -> run c s l = Some (s', t) -> ~ In EReturn t.
Proof.
  intros c i CI CA. induction l as [|a l IH]; intros s s' t Z R; cbn in R; [injection R as <- <-; intros []|].
  destruct (step c s a) as [[s1 e1]|] eqn:D; [|discriminate]. destruct (run c s1 l) as [[s2 e2]|] eqn:R2; [|discriminate]. injection R as <- <-.
  destruct (dead120_step _ _ _ [] _ _ _ CI CA Z D) as [Z1 N]. intro I. apply in_app_or in I. destruct I as [I|I]; [exact (N I) | exact (IH _ _ _ Z1 R2 I)].
Qed.
Theorem C120_refuted : exists c n l s t, run c (init n) l = Some (s, t) /\ busy CShut s /\ forall l' s' t', run c s l' = Some (s', t') -> ~ In EReturn t'.
Proof.
  exists (mk_cfg 1 true true), 1, l_meet. do 2 eexists. split; [vm_compute; reflexivity|]. split; [right; eexists; reflexivity|].
  intros l' s' t' R. refine (dead120_run (mk_cfg 1 true true) 7 eq_refl eq_refl _ _ _ _ _ R). split; [reflexivity|]. split; [eexists; reflexivity | reflexivity].
Qed.
Print Assumptions C120_refuted.
Theorem C120_statement_refuted : ~ C120_statement.
Proof.
  intro H. destruct C120_refuted as (c & n & l & s & t & R & B & N). destruct (H c n l s t CShut R B I) as (l' & s' & t' & _ & R' & I'). exact (N _ _ _ R' I').
Qed.
Print Assumptions C120_statement_refuted.
(** a predicate that asks the pool waits for its own thread *)
Example C120_sharp : exists s t, run (mk_cfg 1 false false) (init 1) [PConnect 7; SPick 0 0; SGo 0; ACall (CVisit true); ALock; AStep] = Some (s, t) /\
  s_app s = Stuck /\ forall l' s' t', run (mk_cfg 1 false false) s l' = Some (s', t') -> ~ In EReturn t'.
Proof.
  do 2 eexists. split; [vm_compute; reflexivity|]. split; [reflexivity|]. 
  assert (G : forall l s s' t', s_app s = Stuck -> run (mk_cfg 1 false false) s l = Some (s', t') -> ~ In EReturn t').
  { induction l as [|a l IH]; intros s s' t' A R; cbn [run] in R; [injection R as <- <-; intros []|].
    destruct (step (mk_cfg 1 false false) s a) as [[s1 e1]|] eqn:D; [|discriminate]. destruct (run (mk_cfg 1 false false) s1 l) as [[s2 e2]|] eqn:R2; [|discriminate]. injection R as <- <-.
    assert (Z : s_app s1 = Stuck /\ ~ In EReturn e1).
    { unfold step in D. assert (W : forall j ms, ~ In EReturn (wire j ms)) by (intros j [|m ms]; cbn; [tauto | intros [H|[]]; discriminate]).
      destruct a; try (rewrite A in D; discriminate).
      - destruct (nth_error (s_thr s) w) as [[|]|]; try discriminate. destruct (nth_error (s_pend s) k) as [h|]; [|discriminate].
        destruct h as [j|j|j|j|j]; cases D; (split; [exact A|]); auto.
      - destruct (nth_error (s_thr s) w) as [[[j|j|j|j|j]|]|]; try discriminate.
        + destruct (s_lock s); [discriminate|]. destruct (existsb (Nat.eqb j) (s_pool s)); injection D as <- <-; (split; [exact A|]); [intros [] | intros [Q|[]]; discriminate].
        + injection D as <- <-. split; [exact A|]. intros [Q|[]]; discriminate.
        + cbn in D. injection D as <- <-. split; [exact A|]. intros [].
        + destruct (l_starting (s_link s j)); [discriminate|]. unfold shut in D. destruct (l_up (s_link s j)); injection D as <- <-; (split; [exact A|]); [intros [Q|[]]; discriminate | intros []].
        + destruct (s_lock s); [discriminate|]. injection D as <- <-. split; [exact A|]. destruct (existsb (Nat.eqb j) (s_pool s)); [intros [Q|[]]; discriminate | intros []].
      - destruct (l_writing (s_link s i)); [|discriminate]. injection D as <- <-. split; [exact A | intros []].
      - destruct (l_up (s_link s i) && negb (l_starting (s_link s i))); [|discriminate]. injection D as <- <-. split; [exact A | intros []].
      - injection D as <- <-. split; [exact A | intros []]. }
    destruct Z as [Z1 Z2]. intro I. apply in_app_or in I. destruct I as [I|I]; [exact (Z2 I) | exact (IH _ _ _ Z1 R2 I)]. }
  intros l' s' t' R. refine (G l' _ s' t' _ R). reflexivity.
Qed.

(** ** C121: a safe broadcast returns once the peers read *)
Definition C121_statement : Prop := forall c n l s t ovf m, 0 < c_limit c -> run c (init n) l = Some (s, t) -> busy (CBroad true ovf m) s ->
  exists l' s' t', forallb library l' = true /\ run c s l' = Some (s', t') /\ In EReturn t'.
(** it does where on_connect does not ask the pool and a service thread does not wait for the pool's mutex *)
Theorem C121_partial : forall c n l s t ovf m, 0 < c_limit c -> run c (init n) l = Some (s, t) -> busy (CBroad true ovf m) s ->
  c_asks c = false -> free_thread s = true ->
  exists l' s' t', forallb library l' = true /\ run c s l' = Some (s', t') /\ In EReturn t'.
Proof. intros c n l s t ovf m P R B N F. apply (returns_busy c _ s (J121_reach _ _ _ _ _ R) B). right. right. auto. Qed.
Print Assumptions C121_partial.
(** one link with a full buffer, another peer about to connect *)
Definition l_full : list act := [PConnect 0; SPick 0 0; SGo 0; SGo 0; SGo 0; ACall (CBroad true false 5); ALock; AStep; AStep; ACall (CBroad true false 6); ALock].
Definition c_one : cfg := mk_cfg 1 false false.
Example C121_ex : exists s t, run c_one (init 1) l_full = Some (s, t) /\ busy (CBroad true false 6) s /\ l_buf (s_link s 0) = [5] /\ l_up (s_link s 0) = true /\ free_thread s = true.
Proof. do 2 eexists. split; [vm_compute; reflexivity|]. split; [right; eexists; reflexivity|]. repeat split. Qed.

(** all service threads are about to add a new link: nobody sends any more *)
Definition dead121 (c : cfg) (i : nat) (s : st) : Prop :=
  s_lock s = true /\ (exists m r, s_app s = Visit (CBroad true false m) (i :: r)) /\ l_up (s_link s i) = true /\ c_limit c <= length (l_buf (s_link s i)) /\
  forall w o, nth_error (s_thr s) w = Some o -> exists j, o = Some (WAdd j).
Lemma dead121_step : forall c i s a s' e, dead121 c i s -> step c s a = Some (s', e) -> dead121 c i s' /\ ~ In EReturn e.
Proof.
  intros c i s a s' e (L & (m & r & A) & U & B & T) D. assert (ST : s_app s = Visit (CBroad true false m) (i :: r)) by exact A. unfold step in D. destruct a.
  - rewrite A in D. discriminate.
  - rewrite A in D. discriminate.
  - rewrite A in D. unfold visit in D. replace (length (l_buf (s_link s i)) <? c_limit c) with false in D by (symmetry; apply Nat.ltb_ge; exact B). rewrite U in D. cbn in D. injection D as <- <-.
    split; [|intros []]. split; [exact L|]. split; [eauto|]. auto.
  - destruct (nth_error (s_thr s) w) as [o|] eqn:W; [|discriminate]. destruct (T _ _ W) as [j ->]. discriminate.
  - destruct (nth_error (s_thr s) w) as [o|] eqn:W; [|discriminate]. destruct (T _ _ W) as [j ->]. rewrite L in D. discriminate.
  - destruct (l_writing (s_link s i0)); [|discriminate]. injection D as <- <-. split; [|intros []]. unfold dead121. pj. split; [exact L|]. split; [eauto|]. unfold upd. destruct (Nat.eqb_spec i i0); [subst; pj|]; auto.
  - destruct (l_up (s_link s i0) && negb (l_starting (s_link s i0))); [|discriminate]. injection D as <- <-. split; [|intros []]. unfold dead121. pj. split; [exact L|]. split; [eauto|]. unfold upd. destruct (Nat.eqb_spec i i0); [subst; pj|]; auto.
  - injection D as <- <-. split; [|intros []]. unfold dead121. pj. split; [exact L|]. split; [eauto|]. auto.
Qed.
Lemma dead121_run : forall c i l s s' t, dead121 c i s -> run c s l = Some (s', t) -> ~ In EReturn t.
Proof.
  intros c i. induction l as [|a l IH]; intros s s' t Z R; cbn in R; [injection R as <- <-; intros []|].
  destruct (step c s a) as [[s1 e1]|] eqn:D; [|discriminate]. destruct (run c s1 l) as [[s2 e2]|] eqn:R2; [|discriminate]. injection R as <- <-.
  destruct (dead121_step _ _ _ _ _ _ Z D) as [Z1 N]. intro I. apply in_app_or in I. destruct I as [I|I]; [exact (N I) | exact (IH _ _ _ Z1 R2 I)].
Qed.
(** occupying the service threads one by one *)
Fixpoint occupy (w n : nat) : list act := match n with 0 => [] | S n' => PConnect (S w) :: SPick w 2 :: occupy (S w) n' end.
Lemma nth_mid {A} : forall (a : list A) x b, nth_error (a ++ x :: b) (length a) = Some x.
Proof. induction a as [|y a IH]; intros x b; [reflexivity | apply IH]. Qed.
Lemma set_mid {A} : forall (a : list A) x y b, set_nth (length a) x (a ++ y :: b) = a ++ x :: b.
Proof. induction a as [|z a IH]; intros x y b; cbn; [reflexivity | rewrite IH; reflexivity]. Qed.
Lemma occupy_run : forall c lk ap po li h1 h2 n done, exists more,
  run c (mk_st lk ap po li [h1; h2] (done ++ repeat None n)) (occupy (length done) n) = Some (mk_st lk ap po li [h1; h2] (done ++ more), []) /\
  forall o, In o more -> exists j, o = Some (WAdd j).
Proof.
  intros c lk ap po li h1 h2. induction n as [|n IH]; intro done.
  - exists []. split; [reflexivity | intros o []].
  - destruct (IH (done ++ [Some (WAdd (S (length done)))])) as (more & R & M). rewrite app_length in R. cbn [length] in R. rewrite Nat.add_1_r in R.
    exists (Some (WAdd (S (length done))) :: more). split.
    + cbn [repeat occupy run step]. pj. rewrite nth_mid. cbn [nth_error app del_nth]. unfold with_thr. pj. rewrite set_mid. rewrite <- !app_assoc in R. cbn [app] in R. rewrite R. reflexivity.
    + intros o [<-|I]; [eexists; reflexivity | apply M, I].
Qed.
Theorem C121_refuted : forall n, exists l s t, run c_one (init (S n)) l = Some (s, t) /\ busy (CBroad true false 6) s /\ forall l' s' t', run c_one s l' = Some (s', t') -> ~ In EReturn t'.
Proof.
  intro n. exists (l_full ++ occupy 0 (S n)).
  destruct (occupy_run c_one true (Visit (CBroad true false 6) [0]) [0] (upd (upd (upd (upd (fun _ => link0) 0 link0) 0 (mk_link true true [] false false)) 0 (mk_link true false [] false false)) 0 (mk_link true false [5] false false)) (HSend 0) (HSend 0) (S n) []) as (more & R & M).
  do 2 eexists. split.
  - rewrite run_app. match goal with |- match ?x with _ => _ end = _ => replace x with (Some (mk_st true (Visit (CBroad true false 6) [0]) [0] (upd (upd (upd (upd (fun _ => link0) 0 link0) 0 (mk_link true true [] false false)) 0 (mk_link true false [] false false)) 0 (mk_link true false [5] false false)) [HSend 0; HSend 0] ([] ++ repeat None (S n)), [EAdd 0; EUp 0; EBegin (CBroad true false 5); EVisit 0 (RQueued 5); EReturn; EBegin (CBroad true false 6)])) by reflexivity end.
    cbn [length] in R. rewrite R. reflexivity.
  - split; [right; eexists; reflexivity|]. intros l' s' t' R'. refine (dead121_run c_one 0 _ _ _ _ _ R'). split; [reflexivity|]. split; [do 2 eexists; reflexivity|]. split; [reflexivity|]. split; [apply le_n|].
    intros w o W. apply nth_error_In in W. exact (M _ W).
Qed.
Print Assumptions C121_refuted.
Theorem C121_statement_refuted : ~ C121_statement.
Proof.
  intro H. destruct (C121_refuted 0) as (l & s & t & R & B & N). destruct (H c_one 1 l s t false 6 (le_n 1) R B) as (l' & s' & t' & _ & R' & I'). exact (N _ _ _ R' I').
Qed.
Print Assumptions C121_statement_refuted.
(** where on_connect asks the pool, free service threads do not help: a link that got messages before it was started waits for the mutex in
    on_connect, and the broadcast waits for the link *)
Definition dead121b (i : nat) (s : st) : Prop :=
  s_lock s = true /\ (exists m r, s_app s = Visit (CBroad true false m) (i :: r)) /\
  (exists m b, s_link s i = mk_link true true (m :: b) false false) /\ ~ In (HSend i) (s_pend s) /\ ~ In (HSent i) (s_pend s).
Lemma in_of_del {A} : forall (l : list A) k x, In x (del_nth k l) -> In x l.
Proof. induction l as [|a l IH]; intros [|k] x I; cbn in *; auto. destruct I as [<-|I]; [left; reflexivity | right; exact (IH _ _ I)]. Qed.
Lemma dead121b_step : forall i s a s' e, dead121b i s -> step c_app s a = Some (s', e) -> dead121b i s' /\ ~ In EReturn e.
Proof.
  intros i s a s' e (L & (m & r & A) & (x & b & K) & N1 & N2) D.
  assert (PUT : forall j l more, (j = i -> l = s_link s i) -> ~ In (HSend i) more -> ~ In (HSent i) more -> dead121b i (put s j l more)).
  { intros j l more H M1 M2. unfold dead121b. pj. split; [exact L|]. split; [eauto|]. split.
    - unfold upd. destruct (Nat.eqb_spec i j); [subst; rewrite H by reflexivity|]; eauto.
    - split; intro I; apply in_app_or in I; tauto. }
  unfold step in D. destruct a.
  - rewrite A in D. discriminate.
  - rewrite A in D. discriminate.
  - rewrite A in D. unfold visit in D. rewrite K in D. cbn in D. injection D as <- <-. split; [|intros []]. split; [exact L|]. split; [eauto|]. split; [eauto|]. auto.
  - destruct (nth_error (s_thr s) w) as [[|]|]; try discriminate. destruct (nth_error (s_pend s) k) as [h|] eqn:P; [|discriminate].
    assert (W : forall j ms, ~ In EReturn (wire j ms)) by (intros j [|y ms]; cbn; [tauto | intros [H|[]]; discriminate]).
    assert (DEL : forall th, dead121b i (mk_st (s_lock s) (s_app s) (s_pool s) (s_link s) (del_nth k (s_pend s)) th)).
    { intro th. unfold dead121b. pj. split; [exact L|]. split; [eauto|]. split; [eauto|]. split; intro I; apply in_of_del in I; auto. }
    assert (PD : forall j l, j <> i -> dead121b i (put (mk_st (s_lock s) (s_app s) (s_pool s) (s_link s) (del_nth k (s_pend s)) (s_thr s)) j l [])).
    { intros j l H. unfold dead121b. pj. rewrite app_nil_r, upd_neq by congruence. exact (DEL (s_thr s)). }
    apply nth_error_In in P. destruct h as [j|j|j|j|j].
    + assert (j <> i) by (intros ->; tauto). destruct (l_sending (s_link s j)); [|destruct (do_send (s_link s j)) as [l' ms] eqn:E]; injection D as <- <-; (split; [|auto]); auto.
    + assert (j <> i) by (intros ->; tauto). destruct (l_up (s_link s j)); [destruct (do_send (s_link s j)) as [l' ms] eqn:E|]; injection D as <- <-; (split; [|auto]); auto.
    + injection D as <- <-. split; [|intros []]. apply DEL.
    + injection D as <- <-. split; [|intros []]. apply DEL.
    + injection D as <- <-. split; [|intros []]. apply DEL.
  - destruct (nth_error (s_thr s) w) as [[[j|j|j|j|j]|]|]; try discriminate.
    + rewrite L in D. discriminate.
    + injection D as <- <-. split; [|intros [H|[]]; discriminate]. refine (PUT j _ [] _ _ _); [intros ->; rewrite K; reflexivity | intros [] | intros []].
    + rewrite L in D. discriminate.
    + destruct (l_starting (s_link s j)) eqn:SJ; [discriminate|]. assert (j <> i) by (intros ->; rewrite K in SJ; discriminate). unfold shut in D. destruct (l_up (s_link s j)); injection D as <- <-.
      * split; [|intros [Q|[]]; discriminate]. refine (PUT j _ [HClose j] _ _ _); [congruence | intros [Q|[]]; discriminate | intros [Q|[]]; discriminate].
      * split; [|intros []]. split; [exact L|]. split; [eauto|]. split; [eauto|]. auto.
    + rewrite L in D. discriminate.
  - destruct (l_writing (s_link s i0)) eqn:WR; [|discriminate]. injection D as <- <-. assert (i0 <> i) by (intros ->; rewrite K in WR; discriminate).
    split; [|intros []]. apply PUT; [congruence | intros [Q|[]]; discriminate | intros [Q|[]]; congruence].
  - destruct (l_up (s_link s i0) && negb (l_starting (s_link s i0))) eqn:PB; [|discriminate]. injection D as <- <-. assert (i0 <> i) by (intros ->; rewrite K in PB; discriminate).
    split; [|intros []]. apply PUT; [congruence | intros [Q|[]]; discriminate | intros [Q|[]]; discriminate].
  - injection D as <- <-. split; [|intros []]. unfold dead121b. pj. split; [exact L|]. split; [eauto|]. split; [eauto|]. split; intro I; apply in_app_or in I; destruct I as [I|[I|[]]]; try discriminate; tauto.
Qed.
Definition l_asks : list act := [PConnect 7; SPick 0 0; SGo 0; ACall (CBroad true false 5); ALock; AStep; AStep; SGo 0; ACall (CBroad true false 6); ALock].
Theorem C121_asks_refuted : exists l s t, run c_app (init 2) l = Some (s, t) /\ busy (CBroad true false 6) s /\ free_thread s = true /\ forall l' s' t', run c_app s l' = Some (s', t') -> ~ In EReturn t'.
Proof.
  exists l_asks. do 2 eexists. split; [vm_compute; reflexivity|]. split; [right; eexists; reflexivity|]. split; [reflexivity|]. intros l'.
  match goal with |- forall s' t', run c_app ?s l' = _ -> _ => assert (Z : dead121b 7 s) by (split; [reflexivity|]; split; [do 2 eexists; reflexivity|]; split; [do 2 eexists; reflexivity|]; split; intros []); revert Z; generalize s end.
  induction l' as [|a l IH]; intros s Z s' t' R; cbn [run] in R; [injection R as <- <-; intros []|].
  destruct (step c_app s a) as [[s1 e1]|] eqn:D; [|discriminate]. destruct (run c_app s1 l) as [[s2 e2]|] eqn:R2; [|discriminate]. injection R as <- <-.
  destruct (dead121b_step _ _ _ _ _ Z D) as [Z1 N]. intro I. apply in_app_or in I. destruct I as [I|I]; [exact (N I) | exact (IH _ Z1 _ _ R2 I)].
Qed.
Print Assumptions C121_asks_refuted.

Example C123_ex : exists s t, run c_app (init 2) (l_two ++ [SPick 0 1]) = Some (s, t) /\ wired 7 t = [5] /\ queued 7 t = [5] /\ queued 9 t = [5] /\ wired 9 t = [].
Proof. do 2 eexists. split; [vm_compute; reflexivity|]. repeat split. Qed.
(** everything queued for a connected link reaches the operating system, where a service thread is free and on_connect does not ask the pool *)
Theorem C123_reaches : forall c n l s t i, run c (init n) l = Some (s, t) -> is_up i t = true -> c_asks c = false -> free_thread s = true -> forallb safe_only l = true ->
  exists l' s' t', forallb library l' = true /\ run c s l' = Some (s', t') /\ wired i (t ++ t') = queued i (t ++ t').
Proof.
  intros c n l s t i R U N F SO. pose proof (J121_reach _ _ _ _ _ R) as J.
  destruct (run_inv c J122m safe_only (J122m_step c) l (init n) [] s t) as (_ & _ & UP); [repeat split | exact SO | exact R |]. cbn [app] in UP. rewrite UP in U.
  destruct (connects c s i J N) as (s1 & G1 & S1 & U1 & _ & F1 & _). rewrite U in U1. destruct (drains c s1 i (goes_J121 _ _ _ J G1) U1 S1 (F1 F)) as (s2 & G2 & B2 & _).
  destruct (goes_trans _ _ _ _ G1 G2) as (l' & t' & L' & R'). exists l', s2, t'. split; [exact L'|]. split; [exact R'|].
  assert (R2 : run c (init n) (l ++ l') = Some (s2, t ++ t')) by (rewrite run_app, R, R'; reflexivity).
  pose proof (run_inv c J123 (fun _ => true) (J123_step c) (l ++ l') (init n) [] s2 (t ++ t') (fun i => eq_refl) (all_ok _) R2 i) as Z. cbn [app] in Z. rewrite B2, app_nil_r in Z. exact Z.
Qed.
Print Assumptions C123_reaches.
Example C123_reaches_ex : exists s t, run c_one (init 1) l_full = Some (s, t) /\ is_up 0 t = true /\ free_thread s = true /\ forallb safe_only l_full = true /\ wired 0 t = [] /\ queued 0 t = [5].
Proof. do 2 eexists. split; [vm_compute; reflexivity|]. repeat split. Qed.
