(** C32: synchronous receiving. *)
From Coq Require Import List NArith Bool Arith Lia.
From Verif Require Import M_SyncRecv.
Import ListNotations.

(** ** specification *)
Definition arrived (tr : list yev) : list msg := flat_map (fun e => match e with EArrive ms => ms | _ => [] end) tr.
(** what went to a caller or to asynchronous dispatching, in this order *)
Definition delivered (tr : list yev) : list msg := flat_map (fun e => match e with EReturn (Success ms) => ms | EDispatch ms => ms | _ => [] end) tr.
Definition returns (tr : list yev) : bool := existsb (fun e => match e with EReturn Duplicate => false | EReturn _ => true | _ => false end) tr.
Definition empty_success (e : yev) : bool := match e with EReturn (Success []) => true | _ => false end.

(** ** invariant *)
Definition active (c : cph) : bool := match c with CNone => false | _ => true end.
Definition is_nil {A} (l : list A) : bool := match l with [] => true | _ => false end.
Definition yok (s : yst) : bool :=
  (* a caller is active exactly while the status says so *)
  eqb (active (cpc s)) (negb (sr_eqb (sr s) NotReq)) &&
  (* the mutex has one owner *)
  negb (match cpc s, rpc s with CBlock _, RBlock _ => true | _, _ => false end) &&
  (match cpc s with CBlock _ => sr_eqb (sr s) Req | _ => true end) &&
  (* the receiving strand waits only for a caller that has been woken *)
  (match rpc s with RBlock k | RWait k => sr_eqb (sr s) (waits_for k) | _ => true end) &&
  (match sr s with Resp | RespFail => match cpc s with CWake _ | CExpired => true | _ => false end | _ => true end) &&
  (* messages are only kept while they are being handed over *)
  (is_nil (temp s) || match rpc s with RHave KData | RBlock KData | RWait KData => true | RWake KData | RStop => sr_eqb (sr s) Resp | _ => false end) &&
  (match sr s, rpc s with
   | Resp, (RBlock KData | RWait KData | RWake KData | RStop) | RespFail, (RBlock KErr | RWait KErr | RWake KErr | RStop) => true
   | (Resp | RespFail), _ => false
   | _, _ => true
   end).
Lemma ystep_inv s a s' tr : yok s = true -> ystep s a = Some (s', tr) -> yok s' = true /\ temp s ++ arrived tr = delivered tr ++ temp s'.
Proof.
  intros I H. destruct s as [sr0 st cl tmp c r].
  destruct sr0; destruct c; try discriminate I; destruct r as [|[]|[]|[]|[]|]; try discriminate I; destruct tmp as [|m tmp]; try discriminate I; destruct st; clear I;
    destruct a; cbn in H; try discriminate H; try (destruct timed; try discriminate H); try (destruct cl; try discriminate H); inversion H; subst; clear H; cbn; rewrite ?app_nil_r; try (split; [reflexivity|reflexivity]).
  all: split; [try (destruct (ms); reflexivity)|try reflexivity].
Qed.
Lemma arrived_app a b : arrived (a ++ b) = arrived a ++ arrived b.
Proof. apply flat_map_app. Qed.
Lemma delivered_app a b : delivered (a ++ b) = delivered a ++ delivered b.
Proof. apply flat_map_app. Qed.
Lemma ysteps_inv l : forall s s' tr, yok s = true -> ysteps s l = Some (s', tr) -> yok s' = true /\ temp s ++ arrived tr = delivered tr ++ temp s'.
Proof.
  induction l as [|a l IH]; intros s s' tr I H; cbn [ysteps] in H; [inversion H; subst; split; [exact I|cbn; apply app_nil_r]|]. destruct (ystep s a) as [[s1 t1]|] eqn:E; [|discriminate]. destruct (ysteps s1 l) as [[s2 t2]|] eqn:E2; [|discriminate]. inversion H; subst.
  destruct (ystep_inv _ _ _ _ I E) as (I1 & C1). destruct (IH _ _ _ I1 E2) as (I2 & C2). split; [exact I2|]. rewrite arrived_app, delivered_app, app_assoc, C1, <- app_assoc, C2, app_assoc. reflexivity.
Qed.

(** ** C32: every message goes to exactly one receiver, in order *)
Theorem C32_once l s tr : ysteps y0 l = Some (s, tr) -> arrived tr = delivered tr ++ temp s.
Proof. intros H. exact (proj2 (ysteps_inv l y0 s tr eq_refl H)). Qed.
Print Assumptions C32_once.
(** what is kept is being handed over: whenever both sides are at rest nothing is *)
Theorem C32_nothing_kept l s tr : ysteps y0 l = Some (s, tr) -> (rpc s = RIdle \/ rpc s = RStop) -> cpc s = CNone -> arrived tr = delivered tr.
Proof.
  intros H R C. destruct (ysteps_inv l y0 s tr eq_refl H) as (I & E). cbn [temp y0 app] in E. rewrite E. unfold yok in I. rewrite C in I. destruct (temp s); [apply app_nil_r|]. exfalso. destruct (sr s); destruct R as [R|R]; rewrite R in I; cbn in I; discriminate.
Qed.
Print Assumptions C32_nothing_kept.
Example C32_once_example : exists s tr, ysteps y0 [SCall false; SBlock; SArrive [1; 2]%N; SHandle; SRBlock; SCont; SRCont; SArrive [3]%N; SHandle] = Some (s, tr) /\ tr = [EArrive [1; 2]%N; EReturn (Success [1; 2]%N); EArrive [3]%N; EDispatch [3]%N].
Proof. do 2 eexists. split; [vm_compute; reflexivity|reflexivity]. Qed.

(** a concurrent second caller is refused and disturbs nobody *)
Theorem C32_duplicate l s tr t s' tr' : ysteps y0 l = Some (s, tr) -> active (cpc s) = true -> ystep s (SCall t) = Some (s', tr') -> s' = s /\ tr' = [EReturn Duplicate].
Proof.
  intros H A C. destruct (ysteps_inv l y0 s tr eq_refl H) as (I & _). unfold yok in I. rewrite A in I. cbn [ystep] in C. destruct (negb (mutex_free s)); [discriminate|]. destruct (sr s); try discriminate; inversion C; auto.
Qed.
Print Assumptions C32_duplicate.
Example C32_duplicate_example : exists s tr, ysteps y0 [SCall false; SBlock; SCall true] = Some (s, tr) /\ tr = [EReturn Duplicate] /\ active (cpc s) = true.
Proof. do 2 eexists. split; [vm_compute; reflexivity|]. split; reflexivity. Qed.

(** while the receiving strand waits for a caller, the caller returns as soon as it runs, and the strand goes on *)
Theorem C32_picked_up l s tr k : ysteps y0 l = Some (s, tr) -> rpc s = RWait k -> exists s1 t1 s2 t2,
  ystep s SCont = Some (s1, t1) /\ returns t1 = true /\ ystep s1 SRCont = Some (s2, t2) /\ (rpc s2 = RIdle \/ rpc s2 = RStop).
Proof.
  intros H R. destruct (ysteps_inv l y0 s tr eq_refl H) as (I & _). clear H. destruct s as [sr0 st cl tmp c r]. cbn [rpc] in R. subst r. destruct k.
  - destruct sr0; destruct c; try discriminate I; cbn; unfold cpred, mutex_free; cbn; rewrite ?orb_true_r; cbn; do 4 eexists; (split; [reflexivity|]); (split; [reflexivity|]); cbn; unfold mutex_free, rpred; cbn; rewrite ?orb_true_r; (split; [reflexivity|]); left; reflexivity.
  - destruct sr0; destruct c; try discriminate I; cbn; unfold cpred, mutex_free; cbn; rewrite ?orb_true_r; cbn; do 4 eexists; (split; [reflexivity|]); (split; [reflexivity|]); cbn; unfold mutex_free, rpred; cbn; rewrite ?orb_true_r; (split; [reflexivity|]); right; reflexivity.
Qed.
Print Assumptions C32_picked_up.
Example C32_picked_up_example : exists s tr, ysteps y0 [SCall false; SBlock; SArrive [1; 2]%N; SHandle; SRBlock] = Some (s, tr) /\ rpc s = RWait KData.
Proof. do 2 eexists. split; [vm_compute; reflexivity|reflexivity]. Qed.

(** a call with a time limit that sleeps returns when its time is up; no other call reports a timeout *)
Theorem C32_timeout l s tr : ysteps y0 l = Some (s, tr) -> cpc s = CWait true ->
  exists s1 s2 r, ystep s STime = Some (s1, []) /\ ystep s1 SCont = Some (s2, [EReturn r]) /\ r <> Duplicate /\ cpc s2 = CNone.
Proof.
  intros H C. destruct (ysteps_inv l y0 s tr eq_refl H) as (I & _). clear H. destruct s as [sr0 st cl tmp c r]. cbn [cpc] in C. subst c.
  destruct sr0; try discriminate I; destruct st; destruct r as [|[]|[]|[]|[]|]; try discriminate I; cbn; do 3 eexists; (split; [reflexivity|]); cbn; (split; [reflexivity|]); (split; [discriminate|reflexivity]).
Qed.
Print Assumptions C32_timeout.
Theorem C32_timeout_only l s tr : ysteps y0 l = Some (s, tr) -> In (EReturn Timeout) tr -> exists a b c, l = a ++ STime :: b ++ SCont :: c.
Proof.
  assert (G : forall l s s' tr, ysteps s l = Some (s', tr) -> In (EReturn Timeout) tr -> (cpc s = CExpired /\ exists b c, l = b ++ SCont :: c) \/ exists a b c, l = a ++ STime :: b ++ SCont :: c).
  { clear. induction l as [|x l IH]; intros s s' tr H T; cbn [ysteps] in H; [injection H as <- <-; destruct T|].
    destruct (ystep s x) as [[s1 t1]|] eqn:E; [|discriminate H]. destruct (ysteps s1 l) as [[s2 t2]|] eqn:E2; [|discriminate H]. injection H as <- <-.
    apply in_app_or in T as [T|T].
    - destruct x; cbn [ystep] in E.
      5: { destruct (negb (mutex_free s)); [discriminate E|]. destruct (cpc s) as [|t|t|t|] eqn:C; try discriminate E; [|left; split; [reflexivity|]; exists [], l; reflexivity].
           destruct (cpred s); [unfold finish in E; destruct (sr s); injection E as <- <-; cbn in T; intuition discriminate|injection E as <- <-; destruct T]. }
      all: exfalso; revert E; unfold finish, resume, dispatch;
        repeat match goal with |- context [match ?y with _ => _ end] => destruct y end; intros E; try discriminate E; injection E as <- <-; cbn in T; intuition discriminate.
    - destruct (IH _ _ _ E2 T) as [(C & b & c & ->)|(a & b & c & ->)]; [|right; exists (x :: a), b, c; reflexivity].
      destruct (cpc s) as [|t|t|t|] eqn:CS; [| | | |left; split; [reflexivity|]; exists (x :: b), c; reflexivity].
      all: right; destruct x; try (exists [], b, c; reflexivity); exfalso; revert E; cbn [ystep]; unfold finish, resume, dispatch, wake_c; rewrite ?CS;
        repeat match goal with |- context [match ?y with _ => _ end] => destruct y end; intros E; try discriminate E; injection E as <- <-; cbn in C; congruence. }
  intros H T. destruct (G _ _ _ _ H T) as [(C & _)|X]; [discriminate C|exact X].
Qed.
Print Assumptions C32_timeout_only.
Example C32_timeout_example : exists s tr, ysteps y0 [SCall true; SBlock] = Some (s, tr) /\ cpc s = CWait true /\
  exists s2 tr2, ysteps y0 [SCall true; SBlock; STime; SArrive [7%N]; SCont; SHandle] = Some (s2, tr2) /\ tr2 = [EArrive [7%N]; EReturn Timeout; EDispatch [7%N]].
Proof. do 2 eexists. split; [vm_compute; reflexivity|]. split; [reflexivity|]. do 2 eexists. split; [vm_compute; reflexivity|reflexivity]. Qed.

(** *** a caller never gets an empty success *)
Definition C32_nonempty_statement : Prop := forall l s tr, ysteps y0 l = Some (s, tr) -> existsb empty_success tr = false.
(** False: a read may yield no complete message (the peer breaks off in the middle of one, or unpacking fails). *)
Theorem C32_empty_success_refuted : exists l s tr, ysteps y0 l = Some (s, tr) /\ existsb empty_success tr = true.
Proof. exists [SCall false; SBlock; SArrive []; SHandle; SRBlock; SCont]. do 2 eexists. split; [vm_compute; reflexivity|reflexivity]. Qed.
Print Assumptions C32_empty_success_refuted.
Theorem C32_nonempty_statement_refuted : ~ C32_nonempty_statement.
Proof. intros H. destruct C32_empty_success_refuted as (l & s & tr & R & E). rewrite (H _ _ _ R) in E. discriminate. Qed.
Print Assumptions C32_nonempty_statement_refuted.
Definition full_reads (l : list yaction) : Prop := Forall (fun a => match a with SArrive ms => ms <> [] | _ => True end) l.
Definition yfull (s : yst) : bool := match rpc s with RHave KData => negb (is_nil (temp s)) | _ => true end && match sr s with Resp => negb (is_nil (temp s)) | _ => true end.
Lemma yfull_step s a s' tr : yok s = true -> yfull s = true -> match a with SArrive ms => ms <> [] | _ => True end -> ystep s a = Some (s', tr) -> yfull s' = true /\ existsb empty_success tr = false.
Proof.
  intros I F A H. destruct s as [sr0 st cl tmp c r].
  destruct sr0; destruct c; try discriminate I; destruct r as [|[]|[]|[]|[]|]; try discriminate I; destruct tmp as [|m tmp]; try discriminate I; try discriminate F; destruct st; clear I F;
    destruct a; cbn in H; try discriminate H; try (destruct timed; try discriminate H); try (destruct cl; try discriminate H); inversion H; subst; clear H; cbn; try (split; [reflexivity|reflexivity]).
  all: destruct ms; [congruence|split; reflexivity].
Qed.
Theorem C32_nonempty_partial l s tr : full_reads l -> ysteps y0 l = Some (s, tr) -> existsb empty_success tr = false.
Proof.
  assert (G : forall s s' tr, yok s = true -> yfull s = true -> full_reads l -> ysteps s l = Some (s', tr) -> existsb empty_success tr = false).
  { induction l as [|a l IH]; intros s1 s' tr1 I F L H; cbn [ysteps] in H; [inversion H; reflexivity|]. destruct (ystep s1 a) as [[s2 t2]|] eqn:E; [|discriminate]. destruct (ysteps s2 l) as [[s3 t3]|] eqn:E2; [|discriminate]. inversion H; subst. apply Forall_cons_iff in L as (LA & L).
    destruct (yfull_step _ _ _ _ I F LA E) as (F1 & X). rewrite existsb_app, X. exact (IH _ _ _ (proj1 (ystep_inv _ _ _ _ I E)) F1 L E2). }
  intros L H. exact (G y0 s tr eq_refl eq_refl L H).
Qed.
Print Assumptions C32_nonempty_partial.
Example C32_nonempty_example : exists s tr, full_reads [SCall false; SBlock; SArrive [7]%N; SHandle; SRBlock; SCont] /\ ysteps y0 [SCall false; SBlock; SArrive [7]%N; SHandle; SRBlock; SCont] = Some (s, tr) /\ tr = [EArrive [7]%N; EReturn (Success [7]%N)].
Proof. do 2 eexists. split; [repeat constructor; discriminate|]. split; [vm_compute; reflexivity|reflexivity]. Qed.

(** *** nobody waits forever after the link is closed *)
Definition asleep (s : yst) : bool := match cpc s with CWait _ => true | _ => false end || match rpc s with RWait _ => true | _ => false end.
Definition C32_awake_statement : Prop := forall l s tr, ysteps y0 l = Some (s, tr) -> started s = false -> closing s = false -> rpc s = RStop \/ rpc s = RIdle -> asleep s = false.
(** False: close clears the flag without the mutex; a caller that has just tested it goes to sleep after the notification and,
    if no read is in progress any more, sleeps forever (unless the implementation wakes it spuriously). *)
Theorem C32_lost_wakeup_refuted : exists l s tr, ysteps y0 l = Some (s, tr) /\ started s = false /\ closing s = false /\ cpc s = CWait false /\ rpc s = RStop /\
  forall l2 s2 tr2, ~ In SSpurC l2 -> ysteps s l2 = Some (s2, tr2) -> s2 = s /\ returns tr2 = false.
Proof.
  exists [SErr; SHandle; SCall false; SClose; SNotify; SBlock]. do 2 eexists. split; [vm_compute; reflexivity|]. split; [reflexivity|]. split; [reflexivity|]. split; [reflexivity|]. split; [reflexivity|].
  induction l2 as [|a l2 IH]; intros s2 tr2 N H; cbn [ysteps] in H; [inversion H; auto|]. destruct a; cbn in H; try discriminate H.
  - match type of H with context [ysteps ?x l2] => destruct (ysteps x l2) as [[s3 t3]|] eqn:E; [|discriminate] end. inversion H; subst. destruct (IH s2 t3 ltac:(intros X; apply N; right; exact X) eq_refl) as (-> & R). split; [reflexivity|exact R].
  - exfalso. apply N. left. reflexivity.
Qed.
Print Assumptions C32_lost_wakeup_refuted.
Theorem C32_awake_statement_refuted : ~ C32_awake_statement.
Proof. intros H. destruct C32_lost_wakeup_refuted as (l & s & tr & R & S & C & W & P & _). pose proof (H l s tr R S C (or_introl P)) as X. unfold asleep in X. rewrite W in X. discriminate. Qed.
Print Assumptions C32_awake_statement_refuted.
(** It holds if the flag is not cleared between a test and the following sleep. *)
Fixpoint close_apart (s : yst) (l : list yaction) : bool :=
  match l with
  | [] => true
  | a :: l' => match a with SClose => mutex_free s | _ => true end && match ystep s a with Some (s1, _) => close_apart s1 l' | None => true end
  end.
Definition yawake (s : yst) : bool := started s || (mutex_free s && (closing s || negb (asleep s))).
Lemma yawake_step s a s' tr : yok s = true -> yawake s = true -> match a with SClose => mutex_free s | _ => true end = true -> ystep s a = Some (s', tr) -> yawake s' = true.
Proof.
  intros I F A H. destruct s as [sr0 st cl tmp c r]. unfold yawake, mutex_free, asleep in *.
  destruct sr0; destruct c; try discriminate I; destruct r as [|[]|[]|[]|[]|]; try discriminate I; destruct tmp as [|m tmp]; try discriminate I; destruct st; destruct cl; try discriminate F; clear I F;
    destruct a; cbn in *; try discriminate H; try discriminate A; try (destruct timed; try discriminate H); inversion H; subst; reflexivity.
Qed.
Theorem C32_awake_partial l s tr : close_apart y0 l = true -> ysteps y0 l = Some (s, tr) -> started s = false -> closing s = false -> asleep s = false.
Proof.
  assert (G : forall s s' tr, yok s = true -> yawake s = true -> close_apart s l = true -> ysteps s l = Some (s', tr) -> yawake s' = true).
  { induction l as [|a l IH]; intros s1 s' tr1 I F L H; cbn [ysteps close_apart] in *; [inversion H; subst; exact F|]. apply andb_prop in L as (LA & L). destruct (ystep s1 a) as [[s2 t2]|] eqn:E; [|discriminate]. destruct (ysteps s2 l) as [[s3 t3]|] eqn:E2; [|discriminate]. inversion H; subst.
    exact (IH _ _ _ (proj1 (ystep_inv _ _ _ _ I E)) (yawake_step _ _ _ _ I F LA E) L E2). }
  intros L H S C. pose proof (G y0 s tr eq_refl eq_refl L H) as X. unfold yawake in X. rewrite S, C in X. apply andb_prop in X as (_ & X). cbn in X. apply negb_true_iff in X. exact X.
Qed.
Print Assumptions C32_awake_partial.
Example C32_awake_example : exists s tr, let l := [SCall false; SBlock; SClose; SNotify; SCont] in close_apart y0 l = true /\ ysteps y0 l = Some (s, tr) /\ tr = [EReturn NotApplicable].
Proof. do 2 eexists. split; [vm_compute; reflexivity|]. split; [vm_compute; reflexivity|reflexivity]. Qed.
