(** C49, C71: listening and accepting. *)
From Coq Require Import List NArith Bool Arith Lia.
From Verif Require Import M_Listen.
Import ListNotations.

(** whether connections are really accepted by the operating system *)
Definition listens (s : lsrv) : bool := match acc s with AListen => true | _ => false end.
Definition all_ok (n : nat) : outcome := mk_out true true n true.
Definition listen_fine (a : lact) : bool := match a with LStart o => listen_ok o | _ => true end.

(** ** C49: is_listening() and start_listen() tell the truth, and start_listen can be retried *)
Definition C49_statement : Prop := forall al s tr, lsteps l0 al = Some (s, tr) ->
  lflag s = listens s /\
  (forall o, fst (start_listen s o) = listens (snd (start_listen s o)) && negb (listens s)) /\
  (forall n, listens s = false -> fst (start_listen s (all_ok n)) = true).
(** False: if listen fails, the flag stays set; start_listen is then refused for ever (until stop_listen). *)
Theorem C49_refuted : exists al s tr, lsteps l0 al = Some (s, tr) /\ tr = [false] /\ lflag s = true /\ listens s = false /\ forall n, fst (start_listen s (all_ok n)) = false.
Proof. exists [LStart (mk_out true true 3 false)]. do 2 eexists. split; [vm_compute; reflexivity|]. split; [reflexivity|]. split; [reflexivity|]. split; [reflexivity|]. intros n. reflexivity. Qed.
Print Assumptions C49_refuted.
Theorem C49_statement_refuted : ~ C49_statement.
Proof. intros H. destruct C49_refuted as (al & s & tr & R & _ & F & L & _). destruct (H _ _ _ R) as (E & _). congruence. Qed.
Print Assumptions C49_statement_refuted.

Definition lgood (s : lsrv) : Prop := lflag s = listens s /\ acc s <> ABound.
Lemma lgood_start s o : listen_ok o = true -> lgood s -> lgood (snd (start_listen s o)).
Proof.
  intros LO (E & B). unfold start_listen, lgood, listens in *. rewrite LO. destruct (lflag s) eqn:F; cbn [snd]; [split; congruence|].
  destruct (acc s) eqn:A; try discriminate; try congruence.
  - destruct (open_ok o); cbn [andb negb]; [destruct (bind_ok o); cbn; split; congruence|rewrite andb_false_r; cbn; split; congruence].
  - destruct (bind_ok o); cbn; split; congruence.
Qed.
Lemma lgood_step s a s1 r : lstep s a = Some (s1, r) -> listen_fine a = true -> lgood s -> lgood s1.
Proof.
  intros H LF V. destruct a; cbn [lstep] in H.
  - destruct (start_listen s o) as [b s2] eqn:E. inversion H; subst. change s1 with (snd (b, s1)). rewrite <- E. apply lgood_start; assumption.
  - inversion H; subst. split; [reflexivity|discriminate].
  - destruct (nth_error (pipe s) k) as [[]|]; try discriminate. destruct (acc s) eqn:A; try discriminate. inversion H; subst. exact V.
  - destruct (nth_error (pipe s) k) as [[]|]; try discriminate. inversion H; subst. exact V.
  - destruct (nth_error (pipe s) k) as [[| |ab|]|]; try discriminate; [inversion H; subst; exact V|]. destruct go_on; [inversion H; subst; exact V|]. destruct ab; inversion H; subst; [exact V|]. split; [reflexivity|discriminate].
  - destruct (nth_error (pipe s) k) as [[]|]; try discriminate. inversion H; subst. exact V.
Qed.
Lemma lgood_steps al : forall s s1 r, lsteps s al = Some (s1, r) -> forallb listen_fine al = true -> lgood s -> lgood s1.
Proof.
  induction al as [|a al IH]; intros s s1 r H F V; cbn [lsteps] in H; [inversion H; subst; exact V|]. cbn [forallb] in F. apply andb_prop in F as (F1 & F2).
  destruct (lstep s a) as [[s2 r2]|] eqn:E; [|discriminate]. destruct (lsteps s2 al) as [[s3 r3]|] eqn:E3; [|discriminate]. inversion H; subst. eapply IH; [exact E3|exact F2|]. eapply lgood_step; eauto.
Qed.
(** It holds as long as the listen call of the operating system does not fail. *)
Theorem C49_truth_partial al s tr : lsteps l0 al = Some (s, tr) -> forallb listen_fine al = true ->
  lflag s = listens s /\
  (forall o, listen_ok o = true -> fst (start_listen s o) = listens (snd (start_listen s o)) && negb (listens s)) /\
  (forall n, listens s = false -> fst (start_listen s (all_ok n)) = true).
Proof.
  intros R F. assert (V : lgood s) by (eapply lgood_steps; [exact R|exact F|]; split; [reflexivity|discriminate]). destruct V as (E & B). split; [exact E|]. split.
  - intros o LO. destruct (start_listen s o) as [b s1] eqn:SL. cbn [fst snd]. unfold start_listen in SL. rewrite LO in SL. destruct (lflag s) eqn:FL.
    + inversion SL; subst. rewrite <- E. reflexivity.
    + rewrite <- E. rewrite andb_true_r. unfold listens in *. destruct (acc s); try discriminate; try congruence.
      * destruct (open_ok o); cbn in SL; [destruct (bind_ok o)|rewrite andb_false_r in SL]; cbn in SL; inversion SL; subst; reflexivity.
      * destruct (bind_ok o); cbn in SL; inversion SL; subst; reflexivity.
  - intros n L. unfold start_listen. rewrite E, L. unfold listens in *. destruct (acc s); try discriminate; try congruence; reflexivity.
Qed.
Print Assumptions C49_truth_partial.
(** In any case stop_listen makes it possible to start again. *)
Theorem C49_stop_recovers s n : lflag (stop_listen s) = false /\ listens (stop_listen s) = false /\
  fst (start_listen (stop_listen s) (all_ok n)) = true /\ listens (snd (start_listen (stop_listen s) (all_ok n))) = true.
Proof. repeat split; reflexivity. Qed.
Print Assumptions C49_stop_recovers.
(** bind fails, then works; accepting; an accept error stops listening; started again *)
Definition ex_l : list lact := [LStart (mk_out true false 2 true); LStart (all_ok 2); LOk 0; LHandle 0 false; LNext 0 true; LErr 1; LHandle 1 false; LStart (all_ok 1)].
Example C49_example : exists s tr, lsteps l0 ex_l = Some (s, tr) /\ forallb listen_fine ex_l = true /\ tr = [false; true; true] /\ listens s = true /\ pipe s = [SErr true; SPend].
Proof. do 2 eexists. split; [vm_compute; reflexivity|]. repeat split; reflexivity. Qed.

(** ** C71: the number of outstanding accepts *)
(** nobody starts or stops, no accept fails, every socket can be created *)
Definition undisturbed (a : lact) : bool := match a with LStart _ | LStop | LErr _ => false | LNext _ ok => ok | _ => true end.
(** accepts that wait or will be renewed *)
Definition outstanding (s : lsrv) : nat := length (filter (fun g => match g with SErr _ => false | _ => true end) (pipe s)).
Definition C71_statement : Prop := forall al s tr o s1 al' s2 tr', lsteps l0 al = Some (s, tr) -> start_listen s o = (true, s1) ->
  lsteps s1 al' = Some (s2, tr') -> forallb undisturbed al' = true -> outstanding s2 = created o /\ listens s2 = true.
(** False when listening was stopped before: a connection accepted shortly before adds an accept for ever, ... *)
Theorem C71_refuted : exists al s tr s1 al' s2 tr', lsteps l0 al = Some (s, tr) /\ start_listen s (all_ok 1) = (true, s1) /\
  lsteps s1 al' = Some (s2, tr') /\ forallb undisturbed al' = true /\ outstanding s2 = 2.
Proof.
  exists [LStart (all_ok 1); LOk 0; LStop]. do 3 eexists. exists [LHandle 0 false; LNext 0 true]. do 2 eexists.
  split; [vm_compute; reflexivity|]. split; [vm_compute; reflexivity|]. split; [vm_compute; reflexivity|]. split; reflexivity.
Qed.
Print Assumptions C71_refuted.
(** ... and an accept started on the closed acceptor makes the server stop listening after it was started again. *)
Theorem C71_late_error_refuted : exists al s tr s1 al' s2 tr', lsteps l0 al = Some (s, tr) /\ start_listen s (all_ok 1) = (true, s1) /\
  lsteps s1 al' = Some (s2, tr') /\ forallb undisturbed al' = true /\ listens s2 = false.
Proof.
  exists [LStart (all_ok 1); LOk 0; LHandle 0 false; LStop; LNext 0 true]. do 3 eexists. exists [LHandle 0 false]. do 2 eexists.
  split; [vm_compute; reflexivity|]. split; [vm_compute; reflexivity|]. split; [vm_compute; reflexivity|]. split; reflexivity.
Qed.
Print Assumptions C71_late_error_refuted.
Theorem C71_statement_refuted : ~ C71_statement.
Proof. intros H. destruct C71_refuted as (al & s & tr & s1 & al' & s2 & tr' & R & ST & R' & U & O). destruct (H _ _ _ _ _ _ _ _ R ST R' U) as (E & _). rewrite O in E. discriminate. Qed.
Print Assumptions C71_statement_refuted.

Lemma put_length k x : forall l, nth_error l k <> None -> length (put k (Some x) l) = length l.
Proof. induction k as [|k IH]; intros [|y l] H; cbn in *; try congruence. rewrite IH; [reflexivity|exact H]. Qed.
Lemma put_Forall (P : stage -> Prop) k x : P x -> forall l, Forall P l -> Forall P (put k (Some x) l).
Proof. intros HX. induction k as [|k IH]; intros [|y l] F; cbn [put]; auto; inversion F; subst; constructor; auto. Qed.
Definition good (g : stage) : Prop := match g with SErr _ => False | _ => True end.
Lemma undisturbed_step s a s1 r : lstep s a = Some (s1, r) -> undisturbed a = true -> lflag s = true -> listens s = true -> Forall good (pipe s) ->
  lflag s1 = true /\ listens s1 = true /\ Forall good (pipe s1) /\ length (pipe s1) = length (pipe s).
Proof.
  intros H U FL LI G. destruct a; cbn [lstep undisturbed] in *; try discriminate.
  - destruct (nth_error (pipe s) k) as [[]|] eqn:E; try discriminate. destruct (acc s) eqn:A; try discriminate. inversion H; subst. cbn [with_pipe lflag pipe]. split; [exact FL|]. split; [exact LI|].
    split; [apply put_Forall; [exact I|exact G]|apply put_length; congruence].
  - destruct (nth_error (pipe s) k) as [[| |ab|]|] eqn:E; try discriminate.
    + rewrite FL in H. inversion H; subst. cbn [with_pipe lflag pipe]. split; [exact FL|]. split; [exact LI|]. split; [apply put_Forall; [exact I|exact G]|apply put_length; congruence].
    + exfalso. apply nth_error_In in E. rewrite Forall_forall in G. exact (G _ E).
  - destruct (nth_error (pipe s) k) as [[]|] eqn:E; try discriminate. subst ok. unfold listens in LI. destruct (acc s) eqn:A; try discriminate. inversion H; subst. cbn [with_pipe lflag pipe]. split; [exact FL|].
    split; [unfold listens; cbn; rewrite A; reflexivity|]. split; [apply put_Forall; [exact I|exact G]|apply put_length; congruence].
Qed.
(** It holds if no accept of an earlier listening is still on its way, in particular for the first start_listen. *)
Theorem C71_constant_partial s o s1 al' s2 tr' : pipe s = [] -> start_listen s o = (true, s1) ->
  lsteps s1 al' = Some (s2, tr') -> forallb undisturbed al' = true -> outstanding s2 = created o /\ listens s2 = true.
Proof.
  intros P ST R U. assert (V : lflag s1 = true /\ listens s1 = true /\ Forall good (pipe s1) /\ length (pipe s1) = created o).
  { unfold start_listen in ST. rewrite P in ST. destruct (lflag s); [discriminate|]. destruct (negb _); [discriminate|]. destruct (listen_ok o); [|discriminate]. inversion ST; subst. cbn [lflag pipe app].
    split; [reflexivity|]. split; [reflexivity|]. split; [|apply repeat_length]. apply Forall_forall. intros x X. apply repeat_spec in X. subst. exact I. }
  destruct V as (V1 & V2 & V3 & V4). rewrite <- V4. clear ST P V4. revert s1 s2 tr' R V1 V2 V3. induction al' as [|a al IH]; intros s1 s2 tr' R V1 V2 V3; cbn [lsteps] in R.
  - inversion R; subst. split; [|exact V2]. unfold outstanding. clear - V3. induction V3 as [|x l X F IH]; [reflexivity|]. cbn [filter]. destruct x; cbn [length]; [rewrite IH; reflexivity|rewrite IH; reflexivity|contradiction|rewrite IH; reflexivity].
  - cbn [forallb] in U. apply andb_prop in U as (U1 & U2). destruct (lstep s1 a) as [[s3 r3]|] eqn:E; [|discriminate]. destruct (lsteps s3 al) as [[s4 r4]|] eqn:E4; [|discriminate]. inversion R; subst.
    destruct (undisturbed_step _ _ _ _ E U1 V1 V2 V3) as (W1 & W2 & W3 & W4). rewrite <- W4. exact (IH U2 _ _ _ E4 W1 W2 W3).
Qed.
Print Assumptions C71_constant_partial.
Example C71_example : exists s1 s2 tr', start_listen l0 (all_ok 3) = (true, s1) /\ lsteps s1 [LOk 1; LOk 0; LHandle 1 false; LHandle 0 false; LNext 0 true] = Some (s2, tr') /\ pipe s2 = [SPend; SNext; SPend].
Proof. do 3 eexists. split; [vm_compute; reflexivity|]. split; [vm_compute; reflexivity|reflexivity]. Qed.
