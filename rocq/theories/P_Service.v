(** C89-C93: services and their pump. *)
From Coq Require Import List Bool Arith Lia.
From Verif Require Import M_Service S_Service L_Service L_ServiceLive.
Import ListNotations.

(** ** C89: init and uninit of a service alternate *)
Definition C89_statement : Prop := forall ctx l s t x, run ctx pump0 l = Some (s, t) -> o_phase (watch x t) <> None.

(** init starts its own service again (for example through start_service(this)) *)
Theorem C89_refuted : exists l s t, run 1 pump0 l = Some (s, t) /\ p_fate s = None /\ p_stack s = [] /\ o_phase (watch 0 t) = None.
Proof.
  exists [ACall (CNew 0 7); ACall (CStart 1); ATick; ACall (CStartOne 0 1); ARet true; ARet true; ATick; ATick].
  do 2 eexists. split; [vm_compute; reflexivity|]. repeat split.
Qed.
Print Assumptions C89_refuted.
Theorem C89_statement_refuted : ~ C89_statement.
Proof. intro C. destruct C89_refuted as (l & s & t & R & _ & _ & P). exact (C _ _ _ _ _ R P). Qed.
Print Assumptions C89_statement_refuted.

(** what is missing: programs that call the pump from inside init, uninit, finalize or free *)
Theorem C89_partial : forall ctx l s t x, tame ctx pump0 l -> run ctx pump0 l = Some (s, t) -> o_phase (watch x t) <> None.
Proof.
  intros ctx l s t x T R. destruct (run_inv _ _ _ _ T R) as (W & [F N L O Dy Sh] & Q). rewrite <- Q. unfold agree in *.
  inversion Sh; subst;
  repeat match goal with
  | A : agree _ _ None |- _ => rewrite (A x) by discriminate; discriminate
  | A : agree _ _ (Some ?y), P : o_phase (_ ?y) = _ |- _ => destruct (Nat.eq_dec x y) as [ -> |Ne]; [rewrite P; discriminate | rewrite (A x) by congruence; discriminate]
  end.
Qed.
Print Assumptions C89_partial.

(** a session: two services, one cannot be initialised; a third is added later and started; everything is stopped *)
Definition ex_session : list act :=
  [ACall (CNew 0 7); ACall (CNew 1 8); ACall (CStart 4); ATick; ARet true; ATick; ARet false; ATick; ATick;
   ACall (CNew 2 9); ACall (CStartOne 2 4); ARet true; ACall CStop; ATick; ARet true; ATick; ATick; ARet true; ATick; AJoin;
   ATick; ARet true; ATick; ARet true; ATick; ARet true; ATick; ATick].
Example C89_ex : exists s t, run 2 pump0 ex_session = Some (s, t) /\ tame 2 pump0 ex_session /\ p_stack s = [] /\
  t = [ENew 0; ENew 1; EInit 0; EInited 0 true; EInit 1; EInited 1 false; EStarted 4; ENew 2; EInit 2; EInited 2 true;
       EUninit 0; EUninited 0; EUninit 2; EUninited 2; EFinal 0; EFinal 1; EFinal 2; EEnded].
Proof. do 2 eexists. split; [vm_compute; reflexivity|]. split; [vm_compute; tauto|]. split; reflexivity. Qed.

(** ** C90: starting the pump initialises every service once, stopping it uninitialises and finalises every service *)
Definition C90_start_statement : Prop := forall ctx l s t a s' n x, run ctx pump0 l = Some (s, t) -> step ctx s a = Some (s', [EStarted n]) -> In x (p_reg s') ->
  o_inits (watch x t) = 1 /\ (o_phase (watch x t) = Some On \/ o_last (watch x t) = Some false).
Definition C90_stop_statement : Prop := forall ctx l s t a s' x, run ctx pump0 l = Some (s, t) -> step ctx s a = Some (s', [EEnded]) -> In x (p_reg s') ->
  o_phase (watch x t) = Some Off /\ o_finals (watch x t) = 1.

(** uninit of one service starts another one, which was stopped before *)
Theorem C90_refuted : exists l s t s', run 1 pump0 l = Some (s, t) /\ step 1 s ATick = Some (s', [EEnded]) /\ In 0 (p_reg s') /\ o_phase (watch 0 t) = Some On.
Proof.
  exists [ACall (CNew 0 7); ACall (CNew 1 8); ACall (CStart 1); ATick; ARet true; ATick; ARet true; ATick; ATick;
          ACall CStop; ATick; ARet true; ATick; ACall (CStartOne 0 1); ARet true; ARet true; ATick; AJoin; ATick; ARet true; ATick; ARet true; ATick].
  do 3 eexists. split; [vm_compute; reflexivity|]. split; [vm_compute; reflexivity|]. split; [left; reflexivity | reflexivity].
Qed.
Print Assumptions C90_refuted.
Theorem C90_statement_refuted : ~ C90_stop_statement /\ ~ C90_start_statement.
Proof.
  split.
  - intro C. destruct C90_refuted as (l & s & t & s' & R & E & I & P). destruct (C _ _ _ _ _ _ _ R E I) as [H _]. congruence.
  - intro C.
    assert (X : exists s t s', run 1 pump0 [ACall (CNew 0 7); ACall (CStart 1); ATick; ACall (CStartOne 0 1); ARet true; ARet true; ATick] = Some (s, t) /\
                step 1 s ATick = Some (s', [EStarted 1]) /\ In 0 (p_reg s') /\ o_inits (watch 0 t) = 2).
    { do 3 eexists. split; [vm_compute; reflexivity|]. split; [vm_compute; reflexivity|]. split; [left; reflexivity | reflexivity]. }
    destruct X as (s & t & s' & R & E & I & P). destruct (C _ _ _ _ _ _ _ _ R E I) as [H _]. congruence.
Qed.
Print Assumptions C90_statement_refuted.

Theorem C90_start_partial : forall ctx l s t a s' n x, tame ctx pump0 l -> run ctx pump0 l = Some (s, t) -> step ctx s a = Some (s', [EStarted n]) ->
  p_started s' = true /\ (In x (p_reg s') -> o_inits (watch x t) = 1 /\ (o_phase (watch x t) = Some On \/ o_last (watch x t) = Some false)).
Proof.
  intros ctx l s t a s' n x T R E. destruct (run_inv _ _ _ _ T R) as (W & [F N L O Dy Sh] & Q). rewrite <- Q.
  assert (K : exists k, p_stack s = FThreads n :: k /\ p_reg s' = p_reg s /\ p_started s' = p_started s).
  { unfold step in E. rewrite F in E. destruct a as [c|b| |].
    - destruct (user_turn (p_stack s)); [|discriminate]. exfalso. destruct c; cbn [docall] in E; unfold do_service, i_start, i_stop in E; repeat match type of E with context [match ?z with _ => _ end] => destruct z end; discriminate.
    - exfalso. unfold deref in E. repeat match type of E with context [match ?z with _ => _ end] => destruct z end; discriminate.
    - destruct (p_stack s) as [|[ | | | | |m| | | | | | ] k]; unfold deref, i_start, i_stop in E; repeat match type of E with context [match ?z with _ => _ end] => destruct z end; try discriminate.
      injection E as <- <-. exists k. repeat split.
    - repeat match type of E with context [match ?z with _ => _ end] => destruct z end; discriminate. }
  destruct K as (k & K & Rg & St). rewrite Rg, St. rewrite K in Sh. inversion Sh; subst. split; [assumption|]. intro Hx.
  destruct (H5 x Hx) as [A B]. split; [exact A|]. destruct B as [B|B]; [left; rewrite (H4 x) by discriminate; rewrite B; reflexivity | right; exact B].
Qed.
Print Assumptions C90_start_partial.
(** Starting with too few threads is reported and changes nothing: no service is initialized, the pump can be started again. *)
Theorem C90_too_few : forall ctx s n s' t, p_started s = false -> (n = 0 \/ n < ctx) -> step ctx s (ACall (CStart n)) = Some (s', t) -> s' = s /\ t = [ERefused].
Proof.
  intros ctx s n s' t O N E. unfold step in E. destruct (p_fate s); [discriminate|]. destruct (user_turn (p_stack s)); [|discriminate]. cbn [docall] in E. rewrite O in E. unfold do_service in E.
  assert (X : (n =? 0) || (n <? ctx) = true) by (apply orb_true_iff; rewrite Nat.eqb_eq, Nat.ltb_lt; lia). rewrite X in E. inversion E; auto.
Qed.
Print Assumptions C90_too_few.
Example C90_too_few_ex : exists s t, run 3 pump0 [ACall (CNew 0 7); ACall (CStart 2); ACall (CStart 3); ATick; ARet true; ATick; ATick] = Some (s, t) /\ t = [ENew 0; ERefused; EInit 0; EInited 0 true; EStarted 3].
Proof. do 2 eexists. split; [vm_compute; reflexivity|]. reflexivity. Qed.
Theorem C90_stop_partial : forall ctx l s t a s' x, tame ctx pump0 l -> run ctx pump0 l = Some (s, t) -> step ctx s a = Some (s', [EEnded]) ->
  p_started s' = false /\ (In x (p_reg s') -> o_phase (watch x t) = Some Off /\ o_finals (watch x t) = 1).
Proof.
  intros ctx l s t a s' x T R E. destruct (run_inv _ _ _ _ T R) as (W & [F N L O Dy Sh] & Q). rewrite <- Q.
  assert (K : exists k, p_stack s = FEnded :: k /\ p_reg s' = p_reg s /\ p_started s' = false).
  { unfold step in E. rewrite F in E. destruct a as [c|b| |].
    - destruct (user_turn (p_stack s)); [|discriminate]. exfalso. destruct c; cbn [docall] in E; unfold do_service, i_start, i_stop in E; repeat match type of E with context [match ?z with _ => _ end] => destruct z end; discriminate.
    - exfalso. unfold deref in E. repeat match type of E with context [match ?z with _ => _ end] => destruct z end; discriminate.
    - destruct (p_stack s) as [|[ | | | | |m| | | | | | ] k]; unfold deref, i_start, i_stop in E; repeat match type of E with context [match ?z with _ => _ end] => destruct z end; try discriminate.
      injection E as <-. exists k. repeat split.
    - repeat match type of E with context [match ?z with _ => _ end] => destruct z end; discriminate. }
  destruct K as (k & K & Rg & St). rewrite Rg. split; [exact St|]. intro Hx. rewrite K in Sh. inversion Sh; subst.
  split; [rewrite (H2 x) by discriminate; rewrite (H3 x Hx); reflexivity | auto].
Qed.
Print Assumptions C90_stop_partial.
(** the example session reaches both events *)
Example C90_start_ex : exists s t s', run 2 pump0 (firstn 8 ex_session) = Some (s, t) /\ tame 2 pump0 (firstn 8 ex_session) /\ step 2 s ATick = Some (s', [EStarted 4]) /\
  p_reg s' = [0; 1] /\ o_phase (watch 0 t) = Some On /\ o_phase (watch 1 t) = Some Off.
Proof. do 3 eexists. split; [vm_compute; reflexivity|]. split; [vm_compute; tauto|]. split; [vm_compute; reflexivity|]. repeat split. Qed.
Example C90_stop_ex : exists s t s', run 2 pump0 (firstn 27 ex_session) = Some (s, t) /\ tame 2 pump0 (firstn 27 ex_session) /\ step 2 s ATick = Some (s', [EEnded]) /\ p_reg s' = [0; 1; 2].
Proof. do 3 eexists. split; [vm_compute; reflexivity|]. split; [vm_compute; tauto|]. split; [vm_compute; reflexivity|]. repeat split. Qed.

(** ** C91: a call of the pump returns *)
(** if the virtual functions return and the threads end, whatever they do, the library gives the control back after a bounded number of steps *)
Definition C91_statement : Prop := forall ctx l s t, run ctx pump0 l = Some (s, t) ->
  (exists N, forall k r, Forall (fun a => library a = true) k -> run ctx s k = Some r -> length k <= N) /\
  (forall k s' t', Forall (fun a => library a = true) k -> run ctx s k = Some (s', t') -> p_stack s' = [] \/ exists a, library a = true /\ step ctx s' a <> None).

(** init constructs, destroys, removes or looks up a service, clears the pump or stops it: the mutex is held *)
Theorem C91_refuted : forall c, In c [CNew 2 9; CDelete 1; CRemove 1; CClear; CFind 8; CStop] ->
  exists s t, run 1 pump0 [ACall (CNew 0 7); ACall (CNew 1 8); ACall (CStart 1); ATick; ACall c] = Some (s, t) /\ p_stack s <> [] /\ p_fate s = Some Deadlock /\ forall a, step 1 s a = None.
Proof.
  intros c H. cbn [In] in H.
  repeat match type of H with _ \/ _ => destruct H as [ <- |H] end; try contradiction;
  (do 2 eexists; split; [vm_compute; reflexivity|]; split; [vm_compute; discriminate|]; split; reflexivity).
Qed.
Print Assumptions C91_refuted.
Theorem C91_statement_refuted : ~ C91_statement.
Proof.
  intro C. destruct (C91_refuted (CFind 8)) as (s & t & R & K & _ & D); [cbn; auto 10|]. destruct (C _ _ _ _ R) as [_ P].
  destruct (P [] s [] (Forall_nil _) eq_refl) as [P'|(a & _ & P')]; [contradiction | apply P', D].
Qed.
Print Assumptions C91_statement_refuted.
(** what is missing: calls from inside the virtual functions *)
Theorem C91_partial : forall ctx l s t, tame ctx pump0 l -> run ctx pump0 l = Some (s, t) ->
  (exists N, forall k r, Forall (fun a => library a = true) k -> run ctx s k = Some r -> length k <= N) /\
  (forall k s' t', Forall (fun a => library a = true) k -> run ctx s k = Some (s', t') -> p_stack s' = [] \/ exists a, library a = true /\ step ctx s' a <> None).
Proof.
  intros ctx l s t T R. destruct (run_inv _ _ _ _ T R) as (W & I & _). split.
  - exists (cost s). intros k r Fk Rk. eapply bounded; eauto.
  - intros k s' t' Fk Rk. destruct (run_inv_gen ctx k s W s' t' I (library_tame _ _ _ Fk) Rk) as (W' & I' & _). eapply enabled; eauto.
Qed.
Print Assumptions C91_partial.
Example C91_ex : exists s t, run 2 pump0 (firstn 13 ex_session) = Some (s, t) /\ tame 2 pump0 (firstn 13 ex_session) /\ p_stack s <> [].
Proof. do 2 eexists. split; [vm_compute; reflexivity|]. split; [vm_compute; tauto|]. vm_compute. discriminate. Qed.

(** ** C92: no object is used after its destruction or destroyed twice *)
Definition C92_statement : Prop := forall ctx l s t, run ctx pump0 l = Some (s, t) -> p_fate s <> Some PureVirtual /\ p_fate s <> Some Dangling /\ p_fate s <> Some Double.
(** - a service is destroyed while it runs (for example: the pump is not stopped before the service goes out of scope);
    - the free() of the pump is overridden to delete the service, and the service is destroyed by the program;
    - uninit of one service deletes another one during clear() *)
Theorem C92_refuted : exists l1 l2 l3 s1 s2 s3 t1 t2 t3,
  run 1 pump0 l1 = Some (s1, t1) /\ p_fate s1 = Some PureVirtual /\
  run 1 pump0 l2 = Some (s2, t2) /\ p_fate s2 = Some Double /\
  run 1 pump0 l3 = Some (s3, t3) /\ p_fate s3 = Some Dangling.
Proof.
  exists [ACall (CNew 0 7); ACall (CStart 1); ATick; ARet true; ATick; ATick; ACall (CDelete 0)],
         [ACall (CNew 0 7); ACall (CDelete 0); ACall (CDelete 0)],
         [ACall (CNew 0 7); ACall (CNew 1 8); ACall (CStart 1); ATick; ARet true; ATick; ARet false; ATick; ATick; ACall CClear; ATick; ATick; ACall (CDelete 1); ARet true; ATick; ARet true; ATick; ARet true; ATick; ATick].
  do 6 eexists. split; [vm_compute; reflexivity|]. split; [reflexivity|]. split; [vm_compute; reflexivity|]. split; [reflexivity|]. split; [vm_compute; reflexivity|]. reflexivity.
Qed.
Print Assumptions C92_refuted.
Theorem C92_statement_refuted : ~ C92_statement.
Proof.
  intro C. destruct C92_refuted as (l1 & _ & _ & s1 & _ & _ & t1 & _ & _ & R & F & _). destruct (C _ _ _ _ R) as [H _]. exact (H F).
Qed.
Print Assumptions C92_statement_refuted.
(** what is missing: calls from inside the virtual functions, and destroying a running service *)
Theorem C92_partial : forall ctx l s t, tame ctx pump0 l -> run ctx pump0 l = Some (s, t) -> p_fate s = None.
Proof. intros ctx l s t T R. destruct (run_inv _ _ _ _ T R) as (W & I & _). exact (i_fate _ _ I). Qed.
Print Assumptions C92_partial.
Example C92_ex : exists s t, let l := ex_session ++ [ACall (CDelete 1); ARet true; ATick; ACall CClear; ATick; ATick; ATick; ARet true; ATick; ATick; ATick; ARet true; ATick] in
  run 2 pump0 l = Some (s, t) /\ tame 2 pump0 l /\ p_reg s = [] /\ p_stack s = [].
Proof. do 2 eexists. cbv zeta. split; [vm_compute; reflexivity|]. split; [vm_compute; tauto|]. split; reflexivity. Qed.

(** ** C93: free() is called once for every service at most *)
Definition C93_statement : Prop := forall ctx l s t x, run ctx pump0 l = Some (s, t) -> count (is_free x) t <= count (is_new x) t.
(** remove calls it, and the destructor calls it again *)
Theorem C93_refuted : exists l s t, run 1 pump0 l = Some (s, t) /\ tame 1 pump0 l /\ p_stack s = [] /\ count (is_new 0) t = 1 /\ count (is_free 0) t = 2.
Proof.
  exists [ACall (CNew 0 7); ACall (CRemoveId 7); ATick; ATick; ARet true; ACall (CDelete 0); ARet true; ATick].
  do 2 eexists. split; [vm_compute; reflexivity|]. split; [vm_compute; tauto|]. repeat split.
Qed.
Print Assumptions C93_refuted.
Theorem C93_statement_refuted : ~ C93_statement.
Proof. intro C. destruct C93_refuted as (l & s & t & R & _ & _ & A & B). specialize (C _ _ _ _ 0 R). lia. Qed.
Print Assumptions C93_statement_refuted.
(** what is missing: programs that remove services from the pump; otherwise it holds for every program, tame or not *)
Theorem C93_partial : forall ctx l s t x, Forall (fun a => removes a = false) l -> run ctx pump0 l = Some (s, t) ->
  count (is_free x) t <= count (is_new x) t.
Proof. intros ctx l s t x F R. assert (H := frees _ _ _ _ x F R). lia. Qed.
Print Assumptions C93_partial.
Example C93_ex : exists s t, let l := [ACall (CNew 0 7); ACall (CDelete 0); ARet true; ATick; ACall (CNew 0 8); ACall (CDelete 0); ARet true; ATick] in
  Forall (fun a => removes a = false) l /\ run 1 pump0 l = Some (s, t) /\ count (is_free 0) t = 2.
Proof. do 2 eexists. cbv zeta. split; [repeat constructor|]. split; [vm_compute; reflexivity|]. reflexivity. Qed.

(** ** C94: services are found by their identity *)
Theorem C94 : forall ctx l s t i s' r, run ctx pump0 l = Some (s, t) -> step ctx s (ACall (CFind i)) = Some (s', [EFound r]) ->
  s' = s /\ match r with
            | Some x => In x (p_reg s) /\ p_id s x = i
            | None => forall x, In x (p_reg s) -> p_id s x <> i
            end.
Proof.
  intros ctx l s t i s' r R E. unfold step in E. destruct (p_fate s); [discriminate|]. destruct (user_turn (p_stack s)); [|discriminate].
  cbn [docall] in E. destruct (p_lock s); [discriminate|]. injection E as <- <-. split; [reflexivity|]. unfold find_id.
  destruct (find _ (p_reg s)) as [x|] eqn:Fd.
  - apply find_some in Fd. destruct Fd as [A B]. split; [exact A | now apply Nat.eqb_eq].
  - intros x Hx Q. apply (find_none _ _ Fd) in Hx. apply Nat.eqb_neq in Hx. contradiction.
Qed.
Print Assumptions C94.
Example C94_ex : exists s t s' s'', run 2 pump0 (firstn 10 ex_session) = Some (s, t) /\ step 2 s (ACall (CFind 9)) = Some (s', [EFound (Some 2)]) /\
  step 2 s (ACall (CFind 5)) = Some (s'', [EFound None]).
Proof. do 4 eexists. split; [vm_compute; reflexivity|]. split; reflexivity. Qed.
