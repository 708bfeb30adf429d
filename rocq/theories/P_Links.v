(** C95: every socket that is added is started. C96: stopping the pump ends all links. *)
From Coq Require Import List Bool Arith Lia.
From Verif Require Import M_Links S_Links.
Import ListNotations.

Ltac pj := cbn [l_pump l_phase l_listen l_can l_sock l_ids l_adders set_phase set_adders set_can enter a_sock a_ph a_mine] in *.

Lemma put_in : forall l i g b a, nth_error l i = Some b -> In a l -> a = b \/ In a (put i g l).
Proof.
  induction l as [|x l IH]; intros [|i] g b a N I; cbn in *; try discriminate.
  - injection N as ->. destruct I as [I|I]; [left; auto|]. right. destruct g; [right; exact I | exact I].
  - destruct I as [I|I]; [right; left; exact I|]. destruct (IH i g b a N I) as [H|H]; [left; exact H | right; right; exact H].
Qed.
Lemma put_new : forall l i b c, nth_error l i = Some b -> In c (put i (Some c) l).
Proof. induction l as [|x l IH]; intros [|i] b c N; cbn in *; try discriminate; [left; reflexivity | right; eapply IH; eauto]. Qed.
Lemma put_back : forall l i g b a, nth_error l i = Some b -> In a (put i g l) -> In a l \/ g = Some a.
Proof.
  induction l as [|x l IH]; intros [|i] g b a N I; cbn in *; try discriminate.
  - destruct g as [c|]; cbn in I; [destruct I as [ -> |I]|]; auto.
  - destruct I as [I|I]; [left; left; exact I|]. destruct (IH i g b a N I) as [H|H]; [left; right; exact H | right; exact H].
Qed.

(** ** C95 *)
Definition late (s : lst) (x : nat) : Prop := exists a, In a (l_adders s) /\ a_sock a = x /\ a_ph a <> A0.
Record I95 (srv : bool) (s : lst) (t : list ev) : Prop := mk_I95 {
  j_pump : l_phase s <> POff -> l_pump s = true;
  j_run : forall x, l_sock s x <> SNew -> In (ERun x) t;
  j_all : match l_phase s with
          | PStart l => forall x, In x (l_can s) -> In x l \/ In (ERun x) t \/ late s x
          | PUp | PStop | PShut _ => forall x, In x (l_can s) -> In (ERun x) t \/ late s x
          | _ => True
          end;
  j_srv : srv = true -> (forall a, In a (l_adders s) -> a_mine a = true) /\ (l_listen s = true -> l_phase s = PUp) /\ (l_phase s = POff -> l_can s = [] /\ l_adders s = []) }.

Lemma start_cases : forall s x, let r := start s x in
  l_pump (fst r) = l_pump s /\ l_phase (fst r) = l_phase s /\ l_listen (fst r) = l_listen s /\ l_can (fst r) = l_can s /\ l_ids (fst r) = l_ids s /\ l_adders (fst r) = l_adders s /\
  (forall y, y <> x -> l_sock (fst r) y = l_sock s y) /\
  ((snd r = [ERun x] /\ l_sock (fst r) x = SUp) \/ (snd r = [] /\ l_sock (fst r) x = l_sock s x /\ l_sock s x <> SNew)).
Proof.
  intros s x. unfold start. destruct (l_sock s x) eqn:E; cbn; repeat split; auto; intros;
  try (unfold upd; rewrite (proj2 (Nat.eqb_neq _ _)) by assumption; reflexivity); unfold upd; rewrite ?Nat.eqb_refl; auto; right; repeat split; auto; congruence.
Qed.
Lemma shut_cases : forall s x, let r := shut s x in
  l_pump r = l_pump s /\ l_phase r = l_phase s /\ l_listen r = l_listen s /\ l_can r = l_can s /\ l_ids r = l_ids s /\ l_adders r = l_adders s /\
  (forall y, y <> x -> l_sock r y = l_sock s y) /\ (l_sock r x = l_sock s x /\ l_sock s x <> SUp \/ l_sock r x = SDown /\ l_sock s x = SUp).
Proof.
  intros s x. unfold shut. destruct (l_sock s x) eqn:E; cbn; repeat split; auto; intros;
  try (unfold upd; rewrite (proj2 (Nat.eqb_neq _ _)) by assumption; reflexivity); unfold upd; rewrite ?Nat.eqb_refl; auto; left; split; auto; congruence.
Qed.

Lemma late_put : forall s i b g x, nth_error (l_adders s) i = Some b -> late s x -> a_sock b <> x -> late (set_adders s (put i g (l_adders s))) x.
Proof.
  intros s i b g x N (a & I & E & P) Ne. destruct (put_in _ _ g _ _ N I) as [ -> |H]; [contradiction|]. exists a. auto.
Qed.

Lemma late_enter : forall s x m y, late s y -> late (enter s x m) y.
Proof. intros s x m y (a & H1 & H2). exists a. split; [apply in_or_app; left; exact H1 | exact H2]. Qed.

Lemma I95_step : forall srv s t a s' e, I95 srv s t -> step srv s a = Some (s', e) -> I95 srv s' (t ++ e).
Proof.
  intros srv s t a s' e [Jp Jr Ja Js] D. destruct a; cbn [step] in D.
  - destruct (l_pump s) eqn:P; [discriminate|]. injection D as <- <-. rewrite app_nil_r. constructor; pj; auto.
  - destruct (l_phase s) eqn:P; try discriminate. destruct (l_pump s) eqn:Pu; [|discriminate]. cbn in D. destruct srv.
    + injection D as <- <-. rewrite app_nil_r. destruct (Js eq_refl) as (A & B & C). destruct (C eq_refl) as [C1 C2]. constructor; pj; auto.
      all: try (rewrite C1; intros x []).
      all: try (intros _; repeat split; auto; discriminate).
    + injection D as <- <-. rewrite app_nil_r. constructor; pj; auto; discriminate.
  - destruct (l_phase s) as [| [|x l] | | | [|x l] |] eqn:P; try discriminate.
    + injection D as <- <-. rewrite app_nil_r. constructor; pj; auto.
      * intros _. apply Jp. discriminate.
      * intros x Hx. destruct (Ja x Hx) as [[]|H]; exact H.
      * intro S. destruct (Js S) as (A & B & C). repeat split; auto; discriminate.
    + injection D as D. pose proof (start_cases (set_phase s (PStart l)) x) as C. rewrite D in C. cbv zeta in C. cbn [fst snd] in C. pj.
      destruct C as (C1 & C2 & C3 & C4 & C5 & C6 & C7 & C8). unfold late in *.
      assert (R : In (ERun x) (t ++ e)). { destruct C8 as [[ -> _]|( -> & _ & H)]; apply in_or_app; [right; left; reflexivity | left; apply Jr; exact H]. }
      constructor; rewrite ?C1, ?C2, ?C3, ?C4.
      * intros _. apply Jp. discriminate.
      * intros y Hy. destruct (Nat.eq_dec y x) as [ -> |Ne]; [exact R|]. apply in_or_app. left. apply Jr. rewrite <- C7; auto.
      * intros y Hy. unfold late. rewrite C6. destruct (Ja y Hy) as [[ <- |H]|[H|H]]; auto. right. left. apply in_or_app. auto.
      * intro S. rewrite C6. destruct (Js S) as (A & B & Cc). repeat split; auto; try discriminate. intro L. apply B in L. discriminate.
    + injection D as <- <-. rewrite app_nil_r. constructor; pj; auto; [intros _; apply Jp; discriminate|].
      intro S. destruct (Js S) as (A & B & C). repeat split; auto; try discriminate. intro L. apply B in L. discriminate.
    + injection D as <- <-. pose proof (shut_cases (set_phase s (PShut l)) x) as C. cbv zeta in C. set (r := shut (set_phase s (PShut l)) x) in *. pj.
      destruct C as (C1 & C2 & C3 & C4 & C5 & C6 & C7 & C8). unfold late in *. constructor; rewrite ?C1, ?C2, ?C3, ?C4.
      * intros _. apply Jp. discriminate.
      * intros y Hy. apply in_or_app. left. apply Jr. destruct (Nat.eq_dec y x) as [ -> |Ne]; [|rewrite <- C7; auto]. destruct C8 as [[C8 _]|[_ C8]]; congruence.
      * intros y Hy. unfold late. rewrite C6. destruct (Ja y Hy) as [H|H]; auto. left. apply in_or_app. auto.
      * intro S. rewrite C6. destruct (Js S) as (A & B & Cc). repeat split; auto; try discriminate. intro L. apply B in L. discriminate.
  - destruct (l_phase s) eqn:P; try discriminate.
    + destruct (l_pump s) eqn:Pu; [|discriminate]. injection D as <- <-. rewrite app_nil_r. constructor; pj; auto.
      intro S. destruct (Js S) as (A & B & C). repeat split; auto; try discriminate. intro L. apply B in L. discriminate.
    + injection D as <- <-. rewrite app_nil_r. constructor; pj; auto; [intros _; apply Jp; discriminate|].
      intro S. destruct (Js S) as (A & B & C). repeat split; auto; discriminate.
  - destruct (l_phase s) eqn:P; try discriminate. injection D as <- <-. rewrite app_nil_r. constructor; pj; auto; [intros _; apply Jp; discriminate|].
    intro S. destruct (Js S) as (A & B & C). repeat split; auto; try discriminate. intro L. apply B in L. discriminate.
  - destruct (l_phase s) eqn:P; try discriminate. destruct (quiet s) eqn:Q; [|discriminate]. injection D as <- <-. constructor; pj; auto.
    { intros x Hx. apply in_or_app. left. auto. }
    intro S. destruct (Js S) as (A & B & C). unfold quiet in Q. apply andb_true_iff in Q as [_ Q]. rewrite forallb_forall in Q.
    assert (Z : l_adders s = []). { destruct (l_adders s) as [|a l]; [reflexivity|]. specialize (A a (or_introl eq_refl)). specialize (Q a (or_introl eq_refl)). rewrite A in Q. discriminate. }
    repeat split; auto; discriminate.
  - destruct (negb srv && fresh s x) eqn:G; [|discriminate]. apply andb_true_iff in G as [G _]. injection D as <- <-. rewrite app_nil_r. constructor; pj; auto.
    + destruct (l_phase s); auto; intros y Hy; specialize (Ja y Hy); intuition auto using late_enter.
    + intro S. subst srv. discriminate.
  - destruct (srv && l_listen s && fresh s x) eqn:G; [|discriminate]. apply andb_true_iff in G as [G _]. apply andb_true_iff in G as [G1 G2]. injection D as <- <-. rewrite app_nil_r. constructor; pj; auto.
    + destruct (l_phase s); auto; intros y Hy; specialize (Ja y Hy); intuition auto using late_enter.
    + intro S. destruct (Js S) as (A & B & C). split; [|split; [exact B|]].
      * intros a H. apply in_app_or in H. destruct H as [H|[ <- |[]]]; [auto | reflexivity].
      * intro P. apply B in G2. congruence.
  - destruct (nth_error (l_adders s) i) as [[x [] m]|] eqn:N; [| | |discriminate].
    + destruct (locked s) eqn:L; [discriminate|]. destruct ok; injection D as <- <-; rewrite app_nil_r; constructor; pj; auto.
      * assert (X : forall y, In y (l_can s ++ [x]) -> (In y (l_can s) /\ y <> x) \/ late (set_can (set_adders s (put i (Some (mk_a x A1 m)) (l_adders s))) (l_can s ++ [x])) y).
        { intros y Hy. destruct (Nat.eq_dec y x) as [ -> |Ne]; [right; exists (mk_a x A1 m); pj; split; [eapply put_new; eauto | split; [reflexivity | discriminate]]|].
          apply in_app_or in Hy. destruct Hy as [Hy|[Hy|[]]]; [left; auto | congruence]. }
        destruct (l_phase s); auto; try discriminate; intros y Hy; destruct (X y Hy) as [[Z1 Z2]|Z]; auto; destruct (Ja y Z1) as [H|H]; auto; try (destruct H as [H|H]; auto);
        right; try right; apply (late_put _ _ _ (Some (mk_a x A1 m)) _ N H); pj; congruence.
      * intro S. destruct (Js S) as (A & B & C). split; [|split; [exact B|]].
        -- intros a H. apply (put_back _ _ _ _ _ N) in H. destruct H as [H|H]; [auto|]. injection H as <-. exact (A _ (nth_error_In _ _ N)).
        -- intro P. destruct (C P) as [_ C2]. rewrite C2 in N. destruct i; discriminate.
      * assert (X : forall y, late s y -> late (set_adders s (put i None (l_adders s))) y).
        { intros y (a & H1 & H2 & H3). destruct (put_in _ _ None _ _ N H1) as [ -> |H]; [now contradiction H3 | exists a; auto]. }
        destruct (l_phase s); auto; intros y Hy; destruct (Ja y Hy) as [H|H]; auto; try (destruct H as [H|H]; auto).
      * intro S. destruct (Js S) as (A & B & C). split; [|split; [exact B|]].
        -- intros a H. apply (put_back _ _ _ _ _ N) in H. destruct H as [H|H]; [auto | discriminate].
        -- intro P. destruct (C P) as [_ C2]. rewrite C2 in N. destruct i; discriminate.
    + destruct (l_pump s) eqn:Pu.
      * injection D as <- <-; rewrite app_nil_r; constructor; pj; auto.
        -- assert (X : forall y, late s y -> late (set_adders s (put i (Some (mk_a x A2 m)) (l_adders s))) y).
           { intros y H. destruct (Nat.eq_dec x y) as [ <- |Ne]; [exists (mk_a x A2 m); pj; split; [eapply put_new; eauto | split; [reflexivity | discriminate]]|]. eapply late_put; eauto. }
           destruct (l_phase s); auto; intros y Hy; destruct (Ja y Hy) as [H|H]; auto; try (destruct H as [H|H]; auto).
        -- intro S. destruct (Js S) as (A & B & C). split; [|split; [exact B|]].
           ++ intros a H. apply (put_back _ _ _ _ _ N) in H. destruct H as [H|H]; [auto|]. injection H as <-. exact (A _ (nth_error_In _ _ N)).
           ++ intro P. destruct (C P) as [_ C2]. rewrite C2 in N. destruct i; discriminate.
      * injection D as <- <-. assert (P : l_phase s = POff) by (destruct (l_phase s); auto; discriminate Jp; discriminate). constructor; pj; auto.
        -- intros y Hy. apply in_or_app. left. auto.
        -- rewrite P. exact I.
        -- intro S. destruct (Js S) as (A & B & C). destruct (C P) as [_ C2]. rewrite C2 in N. destruct i; discriminate.
    + destruct (start (set_adders s (put i None (l_adders s))) x) as [s1 e1] eqn:D1. injection D as <- <-.
      pose proof (start_cases (set_adders s (put i None (l_adders s))) x) as C. rewrite D1 in C. cbv zeta in C. cbn [fst snd] in C. pj.
      destruct C as (C1 & C2 & C3 & C4 & C5 & C6 & C7 & C8). rewrite app_assoc.
      assert (R : In (ERun x) (t ++ e1)). { destruct C8 as [[ -> _]|( -> & _ & H)]; apply in_or_app; [right; left; reflexivity | left; apply Jr; exact H]. }
      assert (X : forall y, In (ERun y) t \/ late s y -> In (ERun y) ((t ++ e1) ++ [EAdded x]) \/ late s1 y).
      { intros y [H|H]; [left; apply in_or_app; left; apply in_or_app; left; exact H|]. destruct (Nat.eq_dec x y) as [ <- |Ne]; [left; apply in_or_app; left; exact R|].
        right. unfold late. rewrite C6. exact (late_put _ _ _ None _ N H Ne). }
      constructor; rewrite ?C1, ?C2, ?C3, ?C4; auto.
      * intros y Hy. apply in_or_app. left. destruct (Nat.eq_dec y x) as [ -> |Ne]; [exact R|]. apply in_or_app. left. apply Jr. rewrite <- C7; auto.
      * destruct (l_phase s); auto; intros y Hy; destruct (Ja y Hy) as [H|H]; auto.
      * intro S. rewrite C6. destruct (Js S) as (A & B & C). split; [|split; [exact B|]].
        -- intros a H. apply (put_back _ _ _ _ _ N) in H. destruct H as [H|H]; [auto | discriminate].
        -- intro P. destruct (C P) as [_ C9]. rewrite C9 in N. destruct i; discriminate.
  - destruct (l_sock s x) eqn:E; try discriminate. injection D as <- <-. rewrite app_nil_r. constructor; pj; auto.
    intros y Hy. unfold upd in Hy. destruct (Nat.eqb_spec y x); subst; [apply Jr; congruence | auto].
  - destruct (l_sock s x) eqn:E; try discriminate. destruct (locked s); [discriminate|]. injection D as <- <-.
    assert (X : forall y, In (ERun y) t -> In (ERun y) (t ++ [EDone x])) by (intros; apply in_or_app; auto). constructor; pj; auto.
    + intros y Hy. apply X. unfold upd in Hy. destruct (Nat.eqb_spec y x); subst; [apply Jr; congruence | auto].
    + unfold late in *. pj. destruct (l_phase s); auto; intros y Hy; apply in_remove in Hy; destruct Hy as [Hy _]; destruct (Ja y Hy) as [H|H]; auto; destruct H as [H|H]; auto.
    + intro S. destruct (Js S) as (A & B & C). split; [exact A | split; [exact B|]]. intro P. destruct (C P) as [C1 C2]. rewrite C1. auto.
Qed.
Lemma I95_run : forall srv l s t s' e, I95 srv s t -> run srv s l = Some (s', e) -> I95 srv s' (t ++ e).
Proof.
  intros srv l. induction l as [|a l IH]; intros s t s' e J R; cbn [run] in R; [injection R as <- <-; rewrite app_nil_r; exact J|].
  destruct (step srv s a) as [[s1 e1]|] eqn:E; [|discriminate]. destruct (run srv s1 l) as [[s2 e2]|] eqn:E2; [|discriminate]. injection R as <- <-.
  rewrite app_assoc. eapply IH; [eapply I95_step; eauto | exact E2].
Qed.
Lemma I95_0 : forall srv, I95 srv links0 [].
Proof.
  intros. constructor; cbn; auto.
  intros _. repeat split; auto. discriminate.
Qed.

(** While a service runs, however adding sockets, accepting connections and starting the pump interleave: every socket in the service
    was started, unless the call that adds it is still under way. *)
Theorem C95 : forall srv l s t x, run srv links0 l = Some (s, t) -> l_phase s = PUp -> In x (l_can s) -> In (ERun x) t \/ adding s x.
Proof.
  intros srv l s t x R P Hx. destruct (I95_run _ _ _ _ _ _ (I95_0 srv) R) as [Jp Jr Ja Js]. rewrite P in Ja. destruct (Ja x Hx) as [H|(a & A & B & _)]; [left; exact H | right; exists a; auto].
Qed.
Print Assumptions C95.
(** a client is added before the pump is started, one while it is being started, one afterwards *)
Definition ex_clients : list act :=
  [LAdd 0; LGo 0 true; LGo 0 true; LAdd 1; LGo 0 true; LPump; LGo 0 true; LInit; LEach; LEach; LEach; LGo 0 true; LAdd 2; LGo 0 true; LGo 0 true; LGo 0 true].
Example C95_ex : exists s t, run false links0 ex_clients = Some (s, t) /\ l_phase s = PUp /\ l_can s = [0; 1; 2] /\ l_adders s = [] /\
  t = [EAdded 0; ERun 0; ERun 1; EAdded 1; ERun 2; EAdded 2].
Proof. do 2 eexists. split; [vm_compute; reflexivity|]. repeat split. Qed.

(** ** C96 *)
(** once stopping has begun to wait for the threads, it ends without help of the peers *)
Definition C96_statement : Prop := forall srv l s t, run srv links0 l = Some (s, t) -> l_phase s = PWait ->
  exists l' s' t', Forall (fun a => library a = true) l' /\ run srv s l' = Some (s', t') /\ In EPumpEnd t'.

(** a link that is up while the pump waits stays up, and the pump waits, as long as the peer does not end it *)
Definition hangs (s : lst) (x : nat) : Prop := l_phase s = PWait /\ l_pump s = true /\ l_sock s x = SUp /\ In x (l_ids s).
Lemma start_up : forall s y x, l_sock s x = SUp -> l_sock (fst (start s y)) x = SUp.
Proof. intros s y x H. unfold start. destruct (l_sock s y) eqn:E; cbn; auto; unfold upd; destruct (x =? y); auto. Qed.
Lemma hangs_step : forall srv s x a s' e, hangs s x -> a <> LPeer x -> step srv s a = Some (s', e) -> hangs s' x /\ ~ In EPumpEnd e.
Proof.
  intros srv s x a s' e (P & Pu & U & I) N D. unfold hangs. destruct a as [ | | | | | |y|y|i ok|y|y]; cbn [step] in D; rewrite ?P in D; rewrite ?Pu in D; try discriminate.
  - unfold quiet in D. assert (Q : forallb (fun y => negb (busy s y)) (l_ids s) = false).
    { apply not_true_is_false. intro Q. rewrite forallb_forall in Q. specialize (Q x I). unfold busy in Q. rewrite U in Q. discriminate. }
    rewrite Q in D. discriminate.
  - destruct (negb srv && fresh s y); [|discriminate]. injection D as <- <-. pj. repeat split; auto. right; exact I.
  - destruct (srv && l_listen s && fresh s y); [|discriminate]. injection D as <- <-. pj. repeat split; auto. right; exact I.
  - destruct (nth_error (l_adders s) i) as [[y [] m]|]; [| | |discriminate].
    + destruct (locked s); [discriminate|]. destruct ok; injection D as <- <-; pj; repeat split; auto.
    + injection D as <- <-; pj; repeat split; auto.
    + destruct (start (set_adders s (put i None (l_adders s))) y) as [s1 e1] eqn:E. injection D as <- <-.
      pose proof (start_cases (set_adders s (put i None (l_adders s))) y) as C. pose proof (start_up (set_adders s (put i None (l_adders s))) y x U) as C9. rewrite E in C, C9. cbv zeta in C. cbn [fst snd] in C, C9. pj.
      destruct C as (C1 & C2 & C3 & C4 & C5 & C6 & C7 & C8). rewrite C1, C2, C5. repeat split; auto. intro H. apply in_app_or in H. destruct H as [H|[H|[]]]; [|discriminate].
      destruct C8 as [[ -> _]|[ -> _]]; [destruct H as [H|[]]; discriminate | destruct H].
  - destruct (l_sock s y) eqn:E; try discriminate. injection D as <- <-. pj. repeat split; auto. unfold upd. destruct (Nat.eqb_spec x y); [subst; contradiction | exact U].
  - destruct (l_sock s y) eqn:E; try discriminate. destruct (locked s); [discriminate|]. injection D as <- <-. pj. repeat split; auto; [|cbn; intuition discriminate]. unfold upd. destruct (Nat.eqb_spec x y); [subst; congruence | exact U].
Qed.
Lemma hangs_run : forall srv x l s s' e, hangs s x -> ~ In (LPeer x) l -> run srv s l = Some (s', e) -> l_sock s' x = SUp /\ ~ In EPumpEnd e.
Proof.
  intros srv x l. induction l as [|a l IH]; intros s s' e H N R; cbn [run] in R; [injection R as <- <-; split; [apply H | intros []]|].
  destruct (step srv s a) as [[s1 e1]|] eqn:E; [|discriminate]. destruct (run srv s1 l) as [[s2 e2]|] eqn:E2; [|discriminate]. injection R as <- <-.
  destruct (hangs_step srv s x a s1 e1 H) as [H1 N1]; [intro Z; apply N; left; auto | exact E |].
  destruct (IH s1 s2 e2 H1) as [A B]; [intro Z; apply N; right; exact Z | exact E2 |]. split; [exact A|]. intro Z. apply in_app_or in Z. tauto.
Qed.
(** a server: a connection is accepted just before listening stops; its handler runs after the loop of uninit and starts the link *)
Definition late_accept : list act := [LPump; LInit; LAccept 0; LStop; LLoop; LEach; LGo 0 true; LGo 0 true; LGo 0 true].
(** a client is being added by another thread while the pump is stopped *)
Definition late_add : list act := [LPump; LInit; LEach; LAdd 0; LGo 0 true; LGo 0 true; LStop; LLoop; LEach; LEach; LGo 0 true].
(** a service that was never started: its sockets are started because the pump is, but uninit is never called *)
Definition never_started : list act := [LPump; LAdd 0; LGo 0 true; LGo 0 true; LGo 0 true; LStop].
Theorem C96_refuted : forall w, In w [(true, late_accept); (false, late_add); (false, never_started)] ->
  exists s t, run (fst w) links0 (snd w) = Some (s, t) /\ l_phase s = PWait /\ l_sock s 0 = SUp /\
  forall l' s' t', run (fst w) s l' = Some (s', t') -> ~ In (LPeer 0) l' -> l_sock s' 0 = SUp /\ ~ In EPumpEnd t'.
Proof.
  intros w Hw. cbn [In] in Hw. destruct Hw as [ <- |[ <- |[ <- |[]]]]; cbn [fst snd];
  (do 2 eexists; split; [vm_compute; reflexivity|]; split; [reflexivity|]; split; [reflexivity|]; intros l' s' t' R N; refine (hangs_run _ 0 l' _ s' t' _ N R);
   repeat split; left; reflexivity).
Qed.
Print Assumptions C96_refuted.
Theorem C96_statement_refuted : ~ C96_statement.
Proof.
  intro C. destruct (C96_refuted (true, late_accept) (or_introl eq_refl)) as (s & t & R & P & _ & D). cbn [fst snd] in *. destruct (C _ _ _ _ R P) as (l' & s' & t' & F & R' & E).
  assert (N : ~ In (LPeer 0) l') by (intro Z; rewrite Forall_forall in F; specialize (F _ Z); discriminate). apply (D _ _ _ R' N). exact E.
Qed.
Print Assumptions C96_statement_refuted.

(** *** without these coincidences *)
Definition stopping (p : phase) : bool := match p with PStop | PShut _ | PWait => true | _ => false end.
Record I96 (s : lst) : Prop := mk_I96 {
  m_can : forall x, busy s x = true -> In x (l_can s);
  m_ids : forall x, In x (l_can s) -> In x (l_ids s);
  m_aids : forall a, In a (l_adders s) -> In (a_sock a) (l_ids s);
  m_late : forall a, In a (l_adders s) -> a_ph a <> A0 -> In (a_sock a) (l_can s);
  m_stop : stopping (l_phase s) = true -> l_adders s = [] /\ l_listen s = false;
  m_pump : l_phase s <> POff -> l_pump s = true;
  m_listen : l_listen s = true -> l_phase s = PUp;
  m_shut : match l_phase s with
           | PStart l => incl l (l_can s)
           | PShut l => forall x, l_sock s x = SUp -> In x l
           | PWait => forall x, l_sock s x <> SUp
           | _ => True
           end }.
Lemma busy_upd : forall s f x, busy (mk_l (l_pump s) (l_phase s) (l_listen s) (l_can s) f (l_ids s) (l_adders s)) x = match f x with SUp | SDown => true | _ => false end.
Proof. reflexivity. Qed.
Lemma no_go : forall s i b, nth_error (l_adders s) i = Some b -> l_adders s <> [].
Proof. intros s i b N Z. rewrite Z in N. destruct i; discriminate. Qed.
Lemma I96_step : forall srv s a s' e, I96 s -> calm1 s a -> step srv s a = Some (s', e) -> I96 s'.
Proof.
  intros srv s a s' e [Mc Mi Ma Ml Ms Mp Mn Mt] K D. unfold busy in *. destruct a; cbn [step] in D; cbn [calm1] in K.
  - destruct (l_pump s) eqn:P; [discriminate|]. injection D as <- <-. constructor; unfold busy; pj; auto.
  - destruct (l_phase s) eqn:P; try discriminate. destruct (l_pump s) eqn:Pu; [|discriminate]. cbn in D.
    destruct srv; injection D as <- <-; constructor; unfold busy; pj; auto; try discriminate.
    + intro L. apply Mn in L. discriminate.
    + apply incl_refl.
  - destruct (l_phase s) as [| [|x l] | | | [|x l] |] eqn:P; try discriminate.
    + injection D as <- <-. constructor; unfold busy; pj; auto; try discriminate. intros _. apply Mp. discriminate.
    + injection D as D. pose proof (start_cases (set_phase s (PStart l)) x) as C. rewrite D in C. cbv zeta in C. cbn [fst snd] in C. pj.
      destruct C as (C1 & C2 & C3 & C4 & C5 & C6 & C7 & C8).
      constructor; unfold busy; rewrite ?C1, ?C2, ?C3, ?C4, ?C5, ?C6; auto; try discriminate.
      * intros y Hy. destruct (Nat.eq_dec y x) as [ -> |Ne]; [apply Mt; left; reflexivity|]. rewrite C7 in Hy by assumption. auto.
      * intros _. apply Mp. discriminate.
      * intro L. apply Mn in L. discriminate.
      * intros y Hy. apply Mt. right. exact Hy.
    + injection D as <- <-. constructor; unfold busy; pj; auto; try discriminate.
      * intros _. apply Mp. discriminate.
      * intro L. apply Mn in L. discriminate.
    + injection D as <- <-. pose proof (shut_cases (set_phase s (PShut l)) x) as C. cbv zeta in C. set (r := shut (set_phase s (PShut l)) x) in *. pj.
      destruct C as (C1 & C2 & C3 & C4 & C5 & C6 & C7 & C8). constructor; unfold busy; rewrite ?C1, ?C2, ?C3, ?C4, ?C5, ?C6; auto; try discriminate.
      * intros y Hy. apply Mc. destruct (Nat.eq_dec y x) as [ -> |Ne]; [|rewrite C7 in Hy by assumption; exact Hy]. destruct C8 as [[C8 _]|[_ C8]]; rewrite C8 in *; auto.
      * intros _. apply Mp. discriminate.
      * intro L. apply Mn in L. discriminate.
      * intros y Hy. destruct (Nat.eq_dec y x) as [ -> |Ne].
        -- destruct C8 as [[C8 N]|[C8 _]]; congruence.
        -- rewrite C7 in Hy by assumption. destruct (Mt y Hy) as [H|H]; [congruence | exact H].
  - destruct K as [P A0]. rewrite P in D. injection D as <- <-. rewrite P in *. constructor; unfold busy; pj; auto; try discriminate. intros _. apply Mp. discriminate.
  - destruct (l_phase s) eqn:P; try discriminate. injection D as <- <-. constructor; unfold busy; pj; auto; try discriminate.
    + intros _. apply Mp. discriminate.
    + intro L. apply Mn in L. discriminate.
    + intros y Hy. apply Mc. rewrite Hy. reflexivity.
  - destruct (l_phase s) eqn:P; try discriminate. destruct (quiet s) eqn:Q; [|discriminate]. injection D as <- <-. destruct (Ms eq_refl) as [A1' A2'].
    unfold quiet in Q. apply andb_true_iff in Q as [Q _]. rewrite forallb_forall in Q. rewrite A1' in *. constructor; unfold busy; pj; auto; try discriminate.
    + intros x Hx. specialize (Q x (Mi _ (Mc _ Hx))). unfold busy in Q. rewrite Hx in Q. discriminate.
  - destruct (negb srv && fresh s x) eqn:G; [|discriminate]. injection D as <- <-. constructor; unfold busy; pj; auto.
    + intros y Hy. right. auto.
    + intros a H. apply in_app_or in H. destruct H as [H|[ <- |[]]]; [right; auto | left; reflexivity].
    + intros a H N. apply in_app_or in H. destruct H as [H|[ <- |[]]]; [auto | contradiction N; reflexivity].
    + intro Z. destruct (l_phase s); try discriminate; destruct K.
  - destruct (srv && l_listen s && fresh s x) eqn:G; [|discriminate]. apply andb_true_iff in G as [G _]. apply andb_true_iff in G as [_ G]. apply Mn in G as P.
    injection D as <- <-. constructor; unfold busy; pj; auto.
    + intros y Hy. right. auto.
    + intros a H. apply in_app_or in H. destruct H as [H|[ <- |[]]]; [right; auto | left; reflexivity].
    + intros a H N. apply in_app_or in H. destruct H as [H|[ <- |[]]]; [auto | contradiction N; reflexivity].
    + rewrite P. discriminate.
  - destruct (nth_error (l_adders s) i) as [[x ph m]|] eqn:N; [|discriminate].
    assert (NS : stopping (l_phase s) = false). { apply not_true_is_false. intro Z. destruct (Ms Z) as [Z1 _]. exact (no_go _ _ _ N Z1). }
    pose proof (nth_error_In _ _ N) as IN. pose proof (Ma _ IN) as Ix. cbn [a_sock] in Ix.
    assert (Hput : forall g a, In a (put i g (l_adders s)) -> In a (l_adders s) \/ g = Some a) by (intros; eapply put_back; eauto).
    assert (FS : stopping (l_phase s) = true -> False) by (rewrite NS; discriminate).
    destruct ph.
    + destruct (locked s) eqn:L; [discriminate|]. destruct ok; injection D as <- <-; constructor; unfold busy; pj; auto.
      * intros y Hy. apply in_or_app. left. auto.
      * intros y Hy. apply in_app_or in Hy. destruct Hy as [Hy|[ <- |[]]]; auto.
      * intros a H. destruct (Hput _ _ H) as [H1|H1]; [auto | injection H1 as <-; exact Ix].
      * intros a H Na. apply in_or_app. destruct (Hput _ _ H) as [H1|H1]; [left; auto | injection H1 as <-; right; left; reflexivity].
      * intro Z. destruct (FS Z).
      * unfold locked in L. destruct (l_phase s); try discriminate; exact I.
      * intros a H. destruct (Hput _ _ H) as [H1|H1]; [auto | discriminate].
      * intros a H Na. destruct (Hput _ _ H) as [H1|H1]; [auto | discriminate].
      * intro Z. destruct (FS Z).
    + assert (Cx : In x (l_can s)) by (apply (Ml _ IN); discriminate).
      destruct (l_pump s) eqn:Pu; injection D as <- <-; constructor; unfold busy; pj; auto.
      * intros a H. destruct (Hput _ _ H) as [H1|H1]; [auto | injection H1 as <-; exact Ix].
      * intros a H Na. destruct (Hput _ _ H) as [H1|H1]; [auto | injection H1 as <-; exact Cx].
      * intro Z. destruct (FS Z).
      * intros a H. destruct (Hput _ _ H) as [H1|H1]; [auto | discriminate].
      * intros a H Na. destruct (Hput _ _ H) as [H1|H1]; [auto | discriminate].
      * intro Z. destruct (FS Z).
      * intro Z. specialize (Mp Z). congruence.
    + assert (Cx : In x (l_can s)) by (apply (Ml _ IN); discriminate).
      destruct (start (set_adders s (put i None (l_adders s))) x) as [s1 e1] eqn:D1. injection D as <- <-.
      pose proof (start_cases (set_adders s (put i None (l_adders s))) x) as C. rewrite D1 in C. cbv zeta in C. cbn [fst snd] in C. pj.
      destruct C as (C1 & C2 & C3 & C4 & C5 & C6 & C7 & C8). constructor; unfold busy; rewrite ?C1, ?C2, ?C3, ?C4, ?C5, ?C6; auto.
      * intros y Hy. destruct (Nat.eq_dec y x) as [ -> |Ne]; [exact Cx|]. rewrite C7 in Hy by assumption. auto.
      * intros a H. destruct (Hput _ _ H) as [H1|H1]; [auto | discriminate].
      * intros a H Na. destruct (Hput _ _ H) as [H1|H1]; [auto | discriminate].
      * intro Z. destruct (FS Z).
      * destruct (l_phase s); auto; discriminate.
  - destruct (l_sock s x) eqn:E; try discriminate. injection D as <- <-. constructor; unfold busy; pj; auto.
    + intros y Hy. unfold upd in Hy. apply Mc. destruct (Nat.eqb_spec y x); [subst; rewrite E; reflexivity | exact Hy].
    + destruct (l_phase s); auto; unfold upd; intro y; destruct (Nat.eqb_spec y x); auto; discriminate.
  - destruct (l_sock s x) eqn:E; try discriminate. destruct (locked s) eqn:L; [discriminate|]. injection D as <- <-.
    assert (R : forall y, y <> x -> In y (l_can s) -> In y (remove Nat.eq_dec x (l_can s))) by (intros; apply in_in_remove; auto). constructor; unfold busy; pj; auto.
    + intros y Hy. unfold upd in Hy. destruct (Nat.eqb_spec y x); [discriminate|]. auto.
    + intros y Hy. apply in_remove in Hy. apply Mi. apply Hy.
    + intros a H Na. apply R; [intro Z; apply K; exists a; auto | auto].
    + unfold locked in L. destruct (l_phase s); auto; try discriminate. intro y. unfold upd. destruct (Nat.eqb_spec y x); auto; discriminate.
Qed.
Lemma I96_run : forall srv l s s' e, I96 s -> calm srv s l -> run srv s l = Some (s', e) -> I96 s'.
Proof.
  intros srv l. induction l as [|a l IH]; intros s s' e J K R; cbn [run] in R; [injection R as <- <-; exact J|].
  cbn [calm] in K. destruct K as [K1 K2]. destruct (step srv s a) as [[s1 e1]|] eqn:E; [|discriminate]. destruct (run srv s1 l) as [[s2 e2]|] eqn:E2; [|discriminate]. injection R as <- <-.
  eapply IH; [eapply I96_step; eauto | exact K2 | exact E2].
Qed.
Lemma I96_0 : I96 links0.
Proof. constructor; unfold busy; cbn; auto; try discriminate; intros x []. Qed.

Definition ends (srv : bool) (s : lst) : Prop := exists l' s' t', Forall (fun a => library a = true) l' /\ run srv s l' = Some (s', t') /\ In EPumpEnd t' /\ forall x, busy s' x = false.
Lemma ends_step : forall srv s a s' e, step srv s a = Some (s', e) -> library a = true -> ends srv s' -> ends srv s.
Proof.
  intros srv s a s' e D L (l' & s2 & t & F & R & I & B). exists (a :: l'), s2, (e ++ t). split; [constructor; auto|]. cbn [run]. rewrite D, R. split; [reflexivity|]. split; [apply in_or_app; right; exact I | exact B].
Qed.
(** a bound for the number of sockets in progress *)
Definition busies (s : lst) : nat := length (filter (busy s) (l_ids s)).
Lemma filter_le : forall (f g : nat -> bool) l, (forall x, g x = true -> f x = true) -> length (filter g l) <= length (filter f l).
Proof. intros f g l H. induction l as [|x l IH]; cbn; [lia|]. destruct (g x) eqn:G; [rewrite (H x G); cbn; lia | destruct (f x); cbn; lia]. Qed.
Lemma filter_lt : forall (f g : nat -> bool) l x, (forall x, g x = true -> f x = true) -> In x l -> f x = true -> g x = false -> length (filter g l) < length (filter f l).
Proof.
  intros f g l x H. induction l as [|y l IH]; intros I F G; [destruct I|]. cbn. destruct I as [ -> |I].
  - rewrite F, G. pose proof (filter_le f g l H). cbn. lia.
  - specialize (IH I F G). destruct (g y) eqn:Gy; [rewrite (H y Gy); cbn; lia | destruct (f y); cbn; lia].
Qed.
Lemma ends_wait : forall srv n s, busies s <= n -> I96 s -> l_phase s = PWait -> ends srv s.
Proof.
  intros srv n. induction n as [|n IH]; intros s B J P.
  - destruct J as [Mc Mi Ma Ml Ms Mp Mn Mt]. rewrite P in *. destruct (Ms eq_refl) as [A _].
    assert (Q0 : forall x, In x (l_ids s) -> busy s x = false).
    { intros x I. apply not_true_is_false. intro Hx. unfold busies in B. assert (In x (filter (busy s) (l_ids s))) by (apply filter_In; auto). destruct (filter (busy s) (l_ids s)); [contradiction | cbn in B; lia]. }
    assert (Q : quiet s = true).
    { unfold quiet. rewrite A. rewrite andb_true_r. apply forallb_forall. intros x I. rewrite Q0 by assumption. reflexivity. }
    exists [LJoin]. do 2 eexists. split; [repeat constructor|]. cbn [run step]. rewrite P, Q. split; [reflexivity|]. split; [left; reflexivity|].
    intro x. apply not_true_is_false. intro Hx. assert (Hx' : busy s x = true) by exact Hx. rewrite (Q0 x (Mi _ (Mc _ Hx'))) in Hx'. discriminate.
  - destruct (filter (busy s) (l_ids s)) as [|x r] eqn:F.
    + apply (IH s); auto. unfold busies. rewrite F. cbn. lia.
    + assert (I : In x (filter (busy s) (l_ids s))) by (rewrite F; left; reflexivity). apply filter_In in I as [I1 I2].
      assert (Sx : l_sock s x = SDown). { pose proof (m_shut s J) as Mt. rewrite P in Mt. unfold busy in I2. destruct (l_sock s x) eqn:E; auto; try discriminate. destruct (Mt x E). }
      assert (D : exists s', step srv s (LClosed x) = Some (s', [EDone x]) /\ busies s' <= n /\ l_phase s' = PWait).
      { cbn [step]. rewrite Sx. unfold locked. rewrite P. eexists. split; [reflexivity|]. split; [|pj; reflexivity]. unfold busies in *. pj.
        match goal with |- length (filter (busy ?s1) _) <= n => assert (L : length (filter (busy s1) (l_ids s)) < length (filter (busy s) (l_ids s))) end; [|lia].
        apply (filter_lt _ _ _ x); auto; unfold busy; cbn; unfold upd; [intros y|]; rewrite ?Nat.eqb_refl; auto. destruct (Nat.eqb_spec y x); auto; discriminate. }
      destruct D as (s' & D & B' & P'). eapply ends_step; [exact D | reflexivity |]. apply (IH s'); auto. eapply I96_step; [exact J | | exact D].
      intros (a & Ia & _). destruct (m_stop s J) as [Z _]; [rewrite P; reflexivity|]. rewrite Z in Ia. destruct Ia.
Qed.
Lemma ends_shut : forall srv l s, I96 s -> l_phase s = PShut l -> ends srv s.
Proof.
  intros srv l. induction l as [|x l IH]; intros s J P.
  - assert (D : step srv s LEach = Some (set_phase s PWait, [])) by (cbn [step]; rewrite P; reflexivity).
    eapply ends_step; [exact D | reflexivity |]. eapply ends_wait; [apply le_n | refine (I96_step srv s _ _ _ J _ D); exact I | reflexivity].
  - assert (D : step srv s LEach = Some (shut (set_phase s (PShut l)) x, [EShut x])) by (cbn [step]; rewrite P; reflexivity).
    eapply ends_step; [exact D | reflexivity |]. apply IH; [refine (I96_step srv s _ _ _ J _ D); exact I|].
    destruct (shut_cases (set_phase s (PShut l)) x) as (_ & C2 & _). exact C2.
Qed.
(** If no socket is being added when the pump is stopped, and none until it has ended, and no socket is closed while it is still being
    added: stopping needs no help of the peers, and afterwards no link is left. Missing: stopping that overlaps adding or accepting, and
    services that were not started; the statement is false for them. *)
Theorem C96_partial : forall srv l s t, run srv links0 l = Some (s, t) -> calm srv links0 l -> stopping (l_phase s) = true -> ends srv s.
Proof.
  intros srv l s t R K P. pose proof (I96_run _ _ _ _ _ I96_0 K R) as J. destruct (l_phase s) eqn:E; try discriminate.
  - assert (D : step srv s LLoop = Some (set_phase s (PShut (l_can s)), [])) by (cbn [step]; rewrite E; reflexivity).
    eapply ends_step; [exact D | reflexivity |]. eapply ends_shut; [refine (I96_step srv s _ _ _ J _ D); exact I | reflexivity].
  - eapply ends_shut; eauto.
  - eapply ends_wait; eauto.
Qed.
Print Assumptions C96_partial.
(** a server with three links, one of which its peer ends while the pump is being stopped *)
Definition ex_server : list act :=
  [LPump; LInit; LAccept 0; LAccept 1; LGo 0 true; LGo 1 true; LGo 1 true; LGo 0 true; LGo 0 true; LAccept 2; LGo 0 true; LGo 0 true; LGo 0 true; LGo 0 true; LStop; LPeer 1; LLoop; LEach].
Example C96_ex : exists s t, run true links0 ex_server = Some (s, t) /\ calm true links0 ex_server /\ stopping (l_phase s) = true /\ map (l_sock s) [0; 1; 2] = [SDown; SDown; SUp].
Proof. do 2 eexists. split; [vm_compute; reflexivity|]. split; [vm_compute; intuition auto | split; reflexivity]. Qed.
(** after a stop the service can be started again, and the links added then run *)
Example C96_again : exists s t, run false links0 ([LAdd 0; LGo 0 true; LGo 0 true; LPump; LInit; LEach; LEach; LStop; LLoop; LEach; LEach; LClosed 0; LJoin] ++
  [LAdd 1; LGo 0 true; LGo 0 true; LPump; LInit; LEach; LEach]) = Some (s, t) /\ t = [EAdded 0; ERun 0; EShut 0; EDone 0; EPumpEnd; EAdded 1; ERun 1] /\ l_phase s = PUp /\ l_can s = [1].
Proof. do 2 eexists. split; [vm_compute; reflexivity|]. repeat split. Qed.
