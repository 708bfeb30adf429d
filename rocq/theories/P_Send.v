(** Properties of the sending side of a TCP socket (C21 - C26, C64). *)
From Coq Require Import List NArith Bool Arith Permutation Lia ZifyBool ZifyNat ZifyN.
From Verif Require Import M_Bytes M_Queue M_Send S_Queue S_Send.
From Verif Require L_Queue L_Send.
Import ListNotations.
Open Scope N_scope.

(** an execution: two threads send concurrently while the link is up; write completions in between;
    a callback in the strand sends too *)
Definition ex_cfg : send_cfg := mk_sc 1048576 65536 (2^64).
Definition a1 : item := [Byte.x61; Byte.x62]. Definition b1 : item := [Byte.x63]. Definition c1 : item := [Byte.x64].
Definition ex_acts : list action :=
  [AUp 0; AThread 0; AThread 0; ATask; AStrand; AStrand; AStrand; AStrand; AStrand;
   ACall 0 [a1] false false; ACall 1 [b1; b1] false false; AThread 1; AThread 1; AThread 0; AThread 0; AThread 0; AThread 0;
   ATask; AStrand; AThread 1; AThread 1; AStrand; AStrand;
   AUser; ACallS [c1] false false; AStrand; AStrand; AStrand; AStrand].
Example ex_run : exists ls s, acts ex_cfg (send_init 2) ex_acts = Some (ls, s) /\ writes s = [[b1; b1; a1]] /\ sb s = [c1] /\
  queued ls = [b1; b1; a1; c1] /\ up ls = true /\ failed ls = false /\ strand s = [FUser] /\ no_prior ls.
Proof. do 2 eexists. split; [vm_compute; reflexivity|]. repeat match goal with |- _ /\ _ => split end; (vm_compute; (reflexivity || exact I)). Qed.

(** C21: at most one write is in flight; every write that was started and is not in flight has completed, in order;
    the messages of the write in flight are left alone *)
Theorem C21_one_write_at_a_time : forall c n al ls s,
  acts c (send_init n) al = Some (ls, s) ->
  started ls = finished ls ++ writes s /\ (writes s = [] \/ writes s = [smsgs s]).
Proof.
  intros c n al ls s E. destruct (L_Send.run_inv c n al ls s E) as [IT IS IO IW IK IR IE]. split; [exact IW|].
  inversion IS; subst; auto.
Qed.
Example C21_example : exists ls s, acts ex_cfg (send_init 2) (ex_acts ++ [AUserRet; AComplete 0 true; AUserRet; AStrand; AStrand; AStrand; AStrand]) = Some (ls, s) /\
  started ls = [[b1; b1; a1]; [c1]] /\ writes s = [[c1]].
Proof. do 2 eexists. split; [vm_compute; reflexivity|]. split; vm_compute; reflexivity. Qed.
Print Assumptions C21_one_write_at_a_time.

(** C22: what was handed to the system, followed by what was taken out for the next write (nothing unless the
    strand is busy) and by the send buffer, is what was queued *)
Theorem C22_fifo_exactly_once : forall c n al ls s,
  acts c (send_init n) al = Some (ls, s) -> no_prior ls ->
  exists taken, (strand s = [] -> taken = []) /\ handed ls ++ taken ++ sb s = queued ls.
Proof.
  intros c n al ls s E NP. destruct (L_Send.run_inv c n al ls s E) as [IT IS IO IW IK IR IE].
  exists (L_Send.mid s). split; [|exact (IO NP)]. intros H. unfold L_Send.mid. rewrite H. reflexivity.
Qed.
Example C22_example := ex_run.
Print Assumptions C22_fifo_exactly_once.

(** C23: when nothing is going on, the link is up and no write failed on it, the send buffer is empty *)
Theorem C23_no_lost_wakeup : forall c n al ls s,
  acts c (send_init n) al = Some (ls, s) -> up ls = true -> failed ls = false -> idle s -> sb s = [].
Proof.
  intros c n al ls s E HU HF ID. pose proof (L_Send.run_inv c n al ls s E) as IV. destruct (sb s) as [|m ms] eqn:EB; [reflexivity|exfalso].
  apply (L_Send.idle_no_wake s ls IV ID). destruct IV as [IT IS IO IW IK IR IE]. apply IK; [rewrite EB; discriminate|rewrite IR; exact HU|exact HF].
Qed.
(** from every reachable state the started work comes to an end after boundedly many steps, whatever their order, and
    then everything queued on a link that is up has been handed over *)
Theorem C23_everything_is_sent : forall c n al ls s,
  acts c (send_init n) al = Some (ls, s) ->
  exists k, forall al2 ls2 s2, forallb goes_on al2 = true -> acts c s al2 = Some (ls2, s2) ->
    (length al2 <= k)%nat /\
    ((forall a, goes_on a = true -> act c s2 a = None) ->
       idle s2 /\ (up (ls ++ ls2) = true -> failed (ls ++ ls2) = false ->
          sb s2 = [] /\ (no_prior (ls ++ ls2) -> handed (ls ++ ls2) = queued (ls ++ ls2)))).
Proof.
  intros c n al ls s E. pose proof (L_Send.run_inv c n al ls s E) as IV. exists (L_Send.meas s). intros al2 ls2 s2 G E2.
  pose proof (L_Send.goes_length c al2 s ls ls2 s2 IV G E2). split; [lia|]. intros ST.
  pose proof (L_Send.stuck_idle c s2 ST) as ID. split; [exact ID|]. intros HU HF.
  pose proof (L_Send.acts_inv c al2 s ls ls2 s2 IV E2) as I2.
  assert (EB : sb s2 = []).
  { destruct (sb s2) as [|m ms] eqn:EB; [reflexivity|exfalso]. apply (L_Send.idle_no_wake s2 _ I2 ID).
    destruct I2 as [IT IS IO IW IK IR IE]. apply IK; [rewrite EB; discriminate|rewrite IR; exact HU|exact HF]. }
  split; [exact EB|]. intros NP. destruct I2 as [IT IS IO IW IK IR IE]. specialize (IO NP). destruct ID as (_ & ES & _).
  unfold L_Send.mid in IO. rewrite ES, EB, app_nil_r in IO. exact IO.
Qed.
Definition ex_rest : list action :=
  [AUserRet; AComplete 0 true; AUserRet; AStrand; AStrand; AStrand; AStrand; AThread 1; AThread 1;
   AComplete 0 true; AUserRet; AStrand; AStrand; AStrand; AStrand; AStrand; AStrand].
Example C23_example : exists ls s, acts ex_cfg (send_init 2) (ex_acts ++ firstn 7 ex_rest) = Some (ls, s) /\
  up ls = true /\ failed ls = false /\ handed ls = [b1; b1; a1; c1] /\ idle (set_writes s []).
Proof. do 2 eexists. split; [vm_compute; reflexivity|]. repeat match goal with |- _ /\ _ => split end; vm_compute; repeat constructor. Qed.
Example C23_example_end : exists ls s, acts ex_cfg (send_init 2) (ex_acts ++ firstn 7 ex_rest ++ skipn 9 ex_rest) = Some (ls, s) /\
  up ls = true /\ failed ls = false /\ idle s /\ queued ls = [b1; b1; a1; c1].
Proof. do 2 eexists. split; [vm_compute; reflexivity|]. repeat match goal with |- _ /\ _ => split end; vm_compute; repeat constructor. Qed.
Print Assumptions C23_no_lost_wakeup.
Print Assumptions C23_everything_is_sent.

(** C24: when all callers respect the limit and no message exceeds [M] bytes, the buffer never holds more than
    the limit - 1 plus one message per caller *)
Theorem C24_buffer_limit : forall c n al ls s M,
  0 < send_limit c -> Forall (polite M) al -> send_limit c - 1 + M * senders n al < sc_W c ->
  acts c (send_init n) al = Some (ls, s) -> total (sb s) <= send_limit c - 1 + M * senders n al.
Proof. exact L_Send.limit_bound. Qed.
(** ... and a send call is refused exactly when the buffered bytes have reached the limit *)
Theorem C24_refused_iff_full : forall c s i it p ovf,
  0 < sc_W c -> total (sb s) < sc_W c -> nth_error (threads s) i = Some (Some (FCheck it p ovf)) ->
  exists s1 l, act c s (AThread i) = Some (s1, l) /\ sb s1 = sb s /\
    (l = LRefuse <-> ovf = false /\ send_limit c <= total (sb s)) /\
    (l = LRefuse -> nth_error (threads s1) i = Some None) /\ (l <> LRefuse -> nth_error (threads s1) i = Some (Some (FEnq it p))).
Proof.
  intros c s i it p ovf HW0 HW EN. cbn [act]. rewrite EN. cbn [exec]. rewrite L_Queue.bytes_of_ok, N.mod_small by lia.
  assert (PN : forall x, nth_error (put i x (threads s)) i = Some x).
  { intros x. assert (i < length (threads s))%nat by (apply nth_error_Some; congruence). unfold put.
    rewrite nth_error_app2; rewrite firstn_length; [|lia]. replace (i - Nat.min i (length (threads s)))%nat with 0%nat by lia. reflexivity. }
  destruct ovf; cbn [orb].
  - do 2 eexists. split; [reflexivity|]. split; [reflexivity|]. split; [|split]; [split; [discriminate|intros [H _]; discriminate]|discriminate|intros _; apply PN].
  - destruct (N.ltb_spec (total (sb s)) (send_limit c)).
    + do 2 eexists. split; [reflexivity|]. split; [reflexivity|]. split; [|split]; [split; [discriminate|intros [_ H1]; lia]|discriminate|intros _; apply PN].
    + do 2 eexists. split; [reflexivity|]. split; [reflexivity|]. split; [|split]; [split; [auto|reflexivity]|intros _; apply PN|congruence].
Qed.
(** two senders both pass the check when one byte below the limit is used: the bound is reached *)
Definition tight_cfg : send_cfg := mk_sc 3 65536 (2^64).
Definition tight_acts : list action :=
  [ACall 0 [a1] false false; AThread 0; AThread 0; ACall 1 [a1] false false; AThread 1; AThread 0; ACall 0 [a1] false false; AThread 0; AThread 0; AThread 1;
   AThread 0; ACall 0 [a1] false false; AThread 0].
Example C24_example : exists ls s, acts tight_cfg (send_init 2) tight_acts = Some (ls, s) /\
  total (sb s) = send_limit tight_cfg - 1 + 2 * senders 2 tight_acts /\ In LRefuse ls /\ Forall (polite 2) tight_acts.
Proof. do 2 eexists. split; [vm_compute; reflexivity|]. split; [vm_compute; reflexivity|]. split; [vm_compute; tauto|].
  unfold tight_acts. repeat match goal with |- Forall _ (_ :: _) => apply Forall_cons | |- Forall _ [] => apply Forall_nil end; cbn [polite]; try exact I;
  (split; [reflexivity|vm_compute; congruence]). Qed.
Print Assumptions C24_buffer_limit.
Print Assumptions C24_refused_iff_full.

(** C25: the full claim *)
Definition C25_statement : Prop := forall c n al ls s, acts c (send_init n) al = Some (ls, s) -> framed ls.
(** a message packed into two items (header, body) is broken apart by a priority message; one item per write
    (ST_ASIO_WANT_MSG_SEND_NOTIFY), default limit *)
Definition h1 : item := [Byte.x00; Byte.x03].
Definition prior_acts : list action :=
  [AUp 0; AThread 0; AThread 0; ATask; AStrand; AStrand; AStrand; AStrand; AStrand;
   ACall 0 [h1; b1] false false; AThread 0; AThread 0; AThread 0; AThread 0; ATask; AStrand; AStrand; AStrand;
   ACall 0 [h1; c1] true false; AThread 0; AThread 0; AThread 0; AThread 0;
   AComplete 0 true; AUserRet; AStrand; AStrand; AStrand; AStrand;
   AComplete 0 true; AUserRet; AStrand; AStrand; AStrand; AStrand;
   AComplete 0 true; AUserRet; AStrand; AStrand; AStrand; AStrand].
Theorem C25_refuted : exists ls s, acts (mk_sc 1048576 0 (2^64)) (send_init 1) prior_acts = Some (ls, s) /\
  frames ls = [h1 ++ b1; h1 ++ c1] /\ concat (handed ls) = h1 ++ (h1 ++ c1) ++ b1.
Proof. do 2 eexists. split; [vm_compute; reflexivity|]. split; vm_compute; reflexivity. Qed.
Print Assumptions C25_refuted.
Corollary C25_statement_refuted : ~ C25_statement.
Proof.
  intros H. destruct C25_refuted as (ls & s & E & EF & EH). destruct (H _ _ _ _ _ E) as (fs & rest & F & C).
  rewrite EF in F. rewrite EH in C. destruct fs as [|f fs]; [discriminate C|]. inversion F as [|? ? F1 F2]; subst.
  destruct F1 as [<-|[<-|[]]]; discriminate C.
Qed.
(** with the default batch size the same happens when the batch limit falls between header and body; what holds: whole
    frames leave if no message is sent with the prior flag, or if every send call queues one item; nothing is lost or sent twice *)
Theorem C25_framed_partial : forall c n al ls s,
  acts c (send_init n) al = Some (ls, s) -> no_prior ls \/ single_items ls ->
  framed ls /\ exists taken, (strand s = [] -> taken = []) /\ Permutation (handed ls ++ taken ++ sb s) (queued ls).
Proof.
  intros c n al ls s E H. destruct (L_Send.acts_flow c al _ [] ls s (L_Send.inv_init n) E) as (H1 & H2).
  cbn [send_init sb] in H1, H2. change (L_Send.mid (send_init n)) with (@nil item) in *. cbn [app] in H1, H2.
  split; [|exists (L_Send.mid s); split; [intros HS; unfold L_Send.mid; rewrite HS; reflexivity|exact H2]].
  destruct H as [NP|SI].
  - specialize (H1 NP). exists (frames ls), (concat (L_Send.mid s ++ sb s)). split; [apply Forall_forall; auto|].
    transitivity (concat (queued ls)); [|rewrite <- H1; apply concat_app]. clear. induction ls as [|l ls IH]; [reflexivity|].
    destruct l; cbn [frames queued]; auto. cbn [concat]. rewrite concat_app, IH. reflexivity.
  - exists (handed ls), []. split; [|rewrite app_nil_r; reflexivity]. apply Forall_forall. intros x HX.
    assert (HQ : In x (queued ls)) by (eapply Permutation_in; [exact H2|apply in_or_app; left; exact HX]).
    clear - SI HQ. induction ls as [|l ls IH]; [contradiction|]. destruct l; cbn [frames queued single_items] in *; auto.
    destruct SI as (SL & SI). destruct it as [|y [|z it]]; try discriminate SL. cbn [concat app] in *. rewrite app_nil_r. destruct HQ as [->|HQ]; [left; reflexivity|right; auto].
Qed.
(** a message sent with the prior flag is put ahead of everything waiting: [s1] is the state before it was queued *)
Theorem C25_prior_goes_first : forall c n al1 ls1 s1 a s2 it al2 ls2 s3,
  acts c (send_init n) al1 = Some (ls1, s1) -> act c s1 a = Some (s2, LEnq true it) -> acts c s2 al2 = Some (ls2, s3) -> no_prior ls2 ->
  exists taken1 taken3, (strand s1 = [] -> taken1 = []) /\ (strand s3 = [] -> taken3 = []) /\
    handed ls2 ++ taken3 ++ sb s3 = taken1 ++ it ++ sb s1 ++ queued ls2.
Proof.
  intros c n al1 ls1 s1 a s2 it al2 ls2 s3 E1 EA E2 NP. pose proof (L_Send.run_inv c n al1 ls1 s1 E1) as I1.
  pose proof (L_Send.act_inv c s1 a ls1 s2 _ I1 EA) as I2. destruct (L_Send.acts_flow c al2 s2 _ ls2 s3 I2 E2) as (H & _). specialize (H NP).
  destruct (L_Send.act_flow c s1 a ls1 s2 _ I1 EA) as (_ & F1 & F2). exists (L_Send.mid s1), (L_Send.mid s3).
  split; [intros HS; unfold L_Send.mid; rewrite HS; reflexivity|]. split; [intros HS; unfold L_Send.mid; rewrite HS; reflexivity|].
  rewrite H, F1, F2. rewrite <- !app_assoc. reflexivity.
Qed.
Definition prior1_acts : list action :=
  [AUp 0; AThread 0; AThread 0; ATask; AStrand; AStrand; AStrand; AStrand; AStrand;
   ACall 0 [a1] false false; AThread 0; AThread 0; AThread 0; AThread 0; ATask; AStrand; AStrand; AStrand;
   ACall 0 [b1] false false; AThread 0; AThread 0; AThread 0; AThread 0;
   ACall 0 [c1] true false; AThread 0; AThread 0; AThread 0; AThread 0;
   AComplete 0 true; AUserRet; AStrand; AStrand; AStrand; AStrand].
Example C25_example : exists ls s, acts ex_cfg (send_init 1) prior1_acts = Some (ls, s) /\ single_items ls /\
  handed ls = [a1; c1; b1] /\ queued ls = [a1; b1; c1].
Proof. do 2 eexists. split; [vm_compute; reflexivity|]. repeat match goal with |- _ /\ _ => split end; vm_compute; repeat constructor. Qed.
Print Assumptions C25_statement_refuted.
Print Assumptions C25_framed_partial.
Print Assumptions C25_prior_goes_first.

(** C26: the full claim: the buffer holds the items of whole messages [fs]; after shrinking it still does *)
Definition C26_statement : Prop := forall W limit calc (fs : list (list item)), total (concat fs) < W - 1 ->
  let '(ok, out, q) := shrink W limit calc (mk_q (concat fs) (total (concat fs))) in exists k, qitems q = concat (skipn k fs).
Theorem C26_refuted : exists fs out q, shrink (2^64) 3 default_shrink (mk_q (concat fs) (total (concat fs))) = (true, out, q) /\
  fs = [[h1; b1]] /\ out = [h1] /\ qitems q = [b1].
Proof. exists [[h1; b1]]. do 2 eexists. split; [vm_compute; reflexivity|]. repeat split. Qed.
Print Assumptions C26_refuted.
Corollary C26_statement_refuted : ~ C26_statement.
Proof.
  intros H. destruct C26_refuted as (fs & out & q & E & EF & EO & EQ). subst fs.
  assert (HB : total (concat [[h1; b1]]) < 2^64 - 1) by (vm_compute; reflexivity).
  specialize (H (2^64) 3 default_shrink [[h1; b1]] HB). rewrite E in H. destruct H as (k & H). rewrite EQ in H.
  destruct k as [|k]; [discriminate H|]. destruct k; discriminate H.
Qed.
(** what holds: the oldest items go, at least as many bytes as requested (or all) and not one item more than needed, the
    counter stays exact, and nothing is discarded while the buffer is available or when the request is 0. Hence whole messages
    are discarded if each message is one item *)
Theorem C26_shrink_partial : forall W limit calc q ok out q',
  1 < W -> qtotal q = total (qitems q) -> total (qitems q) < W - 1 -> shrink W limit calc q = (ok, out, q') ->
  out ++ qitems q' = qitems q /\ qtotal q' = total (qitems q') /\
  (total (qitems q) < limit -> ok = true /\ out = []) /\
  (limit <= total (qitems q) -> ok = negb (calc (total (qitems q)) =? 0) /\
     (calc (total (qitems q)) = 0 -> out = []) /\
     (calc (total (qitems q)) <> 0 -> batch (calc (total (qitems q))) (qitems q) out (qitems q'))).
Proof.
  intros W limit calc q ok out q' HW HT HB E. unfold shrink in E. rewrite HT in E. destruct (N.ltb_spec (total (qitems q)) limit) as [L|L].
  - inversion E; subst. split; [reflexivity|]. split; [exact HT|]. split; [auto|]. intros; lia.
  - destruct (N.eqb_spec (calc (total (qitems q))) 0) as [Z|Z].
    + inversion E; subst. split; [reflexivity|]. split; [exact HT|]. split; [intros; lia|]. intros _. split; [reflexivity|]. split; [reflexivity|]. congruence.
    + destruct (q_out_bytes W q (calc (total (qitems q)))) as [o q1] eqn:EO. inversion E; subst.
      assert (IQ : L_Queue.q_inv W q) by (unfold L_Queue.q_inv; rewrite HT, N.mod_small by lia; reflexivity).
      assert (HP : 0 < W) by lia.
      pose proof (L_Queue.q_step_inv W q (QOutBytes (calc (total (qitems q)))) HP IQ) as I'. cbn [q_step] in I'. rewrite EO in I'.
      assert (B : batch (calc (total (qitems q))) (qitems q) out (qitems q')).
      { unfold q_out_bytes in EO. destruct (N.eqb_spec (calc (total (qitems q))) (W - 1)) as [EQ|Hn].
        - inversion EO; subst. cbn [qitems]. unfold batch. rewrite app_nil_r. split; [reflexivity|]. split; [auto|]. split; [congruence|].
          intros p r Ep _ _. rewrite Ep, L_Queue.total_app in HB. rewrite EQ. lia.
        - destruct (take_bytes W 0 (calc (total (qitems q))) (qitems q)) as [[a s] b] eqn:ET. inversion EO; subst. cbn [qitems].
          assert (HS : 0 + total (qitems q) < W) by lia.
          exact (L_Queue.take_bytes_batch W HP _ _ _ _ _ _ HS ET). }
      destruct B as (B1 & B2). split; [exact B1|]. split.
      * unfold L_Queue.q_inv in I'. rewrite I'. apply N.mod_small. rewrite <- B1, L_Queue.total_app in HB. lia.
      * split; [intros; lia|]. intros _. split; [reflexivity|]. split; [congruence|]. intros _. split; [exact B1|exact B2].
Qed.
Example C26_example : exists out q', shrink (2^64) 5 default_shrink (mk_q [a1; b1; a1; c1] 6) = (true, out, q') /\
  out = [a1] /\ qitems q' = [b1; a1; c1] /\ qtotal q' = 4.
Proof. do 2 eexists. split; [vm_compute; reflexivity|]. repeat split. Qed.
Print Assumptions C26_statement_refuted.
Print Assumptions C26_shrink_partial.

(** C64: the full claim: "true means the send buffer becomes available" (comment in include/socket.h:390) *)
Definition C64_statement : Prop := forall W limit q ok out q', 1 < W -> qtotal q = total (qitems q) -> total (qitems q) < W - 1 ->
  shrink W limit default_shrink q = (ok, out, q') -> ok = true -> qtotal q' < limit.
(** a buffer that a single polite sender can produce: 29 bytes in one-byte messages, then one message of 58 bytes, limit 30 *)
Theorem C64_refuted : exists q out q', q = mk_q (repeat b1 29 ++ [repeat Byte.x00 58]) 87 /\ qtotal q = total (qitems q) /\
  shrink (2^64) 30 default_shrink q = (true, out, q') /\ qtotal q' = 58.
Proof. do 3 eexists. split; [reflexivity|]. split; [vm_compute; reflexivity|]. split; vm_compute; reflexivity. Qed.
Print Assumptions C64_refuted.
Corollary C64_statement_refuted : ~ C64_statement.
Proof.
  intros H. destruct C64_refuted as (q & out & q' & EQ & ET & ES & EN).
  assert (A : 1 < 2^64) by (vm_compute; reflexivity). assert (B : total (qitems q) < 2^64 - 1) by (subst q; vm_compute; reflexivity).
  specialize (H (2^64) 30 q true out q' A ET B ES eq_refl). rewrite EN in H. discriminate H.
Qed.
(** it holds when more is discarded than exceeds the limit *)
Theorem C64_available_partial : forall W limit calc q out q',
  1 < W -> 0 < limit -> qtotal q = total (qitems q) -> total (qitems q) < W - 1 -> shrink W limit calc q = (true, out, q') ->
  total (qitems q) < limit + calc (total (qitems q)) \/ total (qitems q) < limit -> qtotal q' < limit.
Proof.
  intros W limit calc q out q' HW HL HT HB E H. destruct (C26_shrink_partial W limit calc q true out q' HW HT HB E) as (S1 & S2 & S3 & S4). rewrite S2.
  rewrite <- S1, L_Queue.total_app in H. rewrite <- S1, L_Queue.total_app in S3, S4.
  destruct (N.lt_ge_cases (total out + total (qitems q')) limit) as [L|L]; [lia|]. destruct (S4 L) as (A & B & C).
  destruct (N.eqb_spec (calc (total out + total (qitems q'))) 0) as [Z|Z]; [discriminate A|]. destruct (C Z) as (_ & _ & C3 & _).
  destruct (qitems q') as [|m ms] eqn:EQ; [cbn [total]; exact HL|]. assert (NE : m :: ms <> []) by discriminate. specialize (C3 NE). lia.
Qed.
Example C64_example : exists out q', shrink (2^64) 5 default_shrink (mk_q [a1; b1; a1; c1] 6) = (true, out, q') /\ qtotal q' = 4 /\ 6 < 5 + default_shrink 6.
Proof. do 2 eexists. split; [vm_compute; reflexivity|]. split; vm_compute; reflexivity. Qed.
Print Assumptions C64_statement_refuted.
Print Assumptions C64_available_partial.
