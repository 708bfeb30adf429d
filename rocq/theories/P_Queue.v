(** Properties of message queues (C19, C20). *)
From Coq Require Import List NArith Bool Lia ZifyBool ZifyNat ZifyN.
From Verif Require Import M_Bytes M_Queue S_Queue.
From Verif Require L_Queue.
Import ListNotations.
Open Scope N_scope.

(** C19: after any history the byte counter is the exact size of the items (modulo the range of size_t, hence
    exact while the content fits the address space) and the next operation acts like that of an ideal deque *)
Theorem C19_queue_is_a_deque : forall W os outs q,
  1 < W -> q_run W q_new os = Ok (outs, q) ->
  qtotal q = total (qitems q) mod W /\
  forall o, qop_ok o -> total (qitems q) + qop_adds o < W - 1 -> lenN (qitems q) < W - 1 ->
    exists out q', q_step W q o = Ok (out, q') /\ ideal o (qitems q) out (qitems q').
Proof.
  intros W os outs q HW E.
  assert (I0 : L_Queue.q_inv W q_new) by (unfold L_Queue.q_inv; cbn [q_new qitems qtotal total]; rewrite N.mod_0_l by lia; reflexivity).
  pose proof (L_Queue.q_run_inv W ltac:(lia) os q_new I0) as I. rewrite E in I. split; [exact I|].
  intros o HO HT HL. exact (L_Queue.q_step_ideal W q o HW I HO HT HL).
Qed.

Definition ex_ops : list qop :=
  [QEnqueue [Byte.x61; Byte.x62]; QEnqueueFront [Byte.x63]; QMoveIn [[Byte.x64; Byte.x65]; []; [Byte.x66]] 3; QPop; QOutNum 1;
   QMoveInFront [[Byte.x67; Byte.x67; Byte.x67]; [Byte.x68]] 0].
Example C19_example : exists outs q, q_run (2^64) q_new ex_ops = Ok (outs, q) /\ qtotal q = 7 /\
  qitems q = [[Byte.x67; Byte.x67; Byte.x67]; [Byte.x68]; [Byte.x64; Byte.x65]; []; [Byte.x66]] /\
  total (qitems q) + qop_adds (QOutBytes 4) < 2^64 - 1 /\ lenN (qitems q) < 2^64 - 1.
Proof. do 2 eexists. split; [vm_compute; reflexivity|]. repeat match goal with |- _ /\ _ => split end; (vm_compute; reflexivity). Qed.
Print Assumptions C19_queue_is_a_deque.

(** C20: a batch is the shortest non-empty beginning of the queue that reaches the limit *)
Theorem C20_batches : forall W os outs q n,
  1 < W -> q_run W q_new os = Ok (outs, q) -> total (qitems q) < W - 1 ->
  let '(out, q') := q_out_bytes W q n in batch n (qitems q) out (qitems q') /\ qtotal q' = total (qitems q').
Proof.
  intros W os outs q n HW E HT.
  assert (I0 : L_Queue.q_inv W q_new) by (unfold L_Queue.q_inv; cbn [q_new qitems qtotal total]; rewrite N.mod_0_l by lia; reflexivity).
  pose proof (L_Queue.q_run_inv W ltac:(lia) os q_new I0) as I. rewrite E in I.
  pose proof (L_Queue.q_step_inv W q (QOutBytes n) ltac:(lia) I) as I'. cbn [q_step] in I'.
  destruct (q_out_bytes W q n) as [out q'] eqn:EO.
  assert (B : batch n (qitems q) out (qitems q')).
  { unfold q_out_bytes in EO. destruct (N.eqb_spec n (W - 1)) as [->|Hn].
    - inversion EO; subst. cbn [qitems]. unfold batch. rewrite app_nil_r. split; [reflexivity|]. split; [auto|]. split; [congruence|].
      intros p r Ep _ _. rewrite Ep, L_Queue.total_app in HT. lia.
    - destruct (take_bytes W 0 n (qitems q)) as [[a s] b] eqn:ET. inversion EO; subst. cbn [qitems].
      assert (HS : 0 + total (qitems q) < W) by lia. assert (HP : 0 < W) by lia.
      exact (L_Queue.take_bytes_batch W HP _ _ _ _ _ _ HS ET). }
  split; [exact B|]. unfold L_Queue.q_inv in I'. rewrite I'. apply N.mod_small.
  destruct B as (B1 & _). rewrite <- B1, L_Queue.total_app in HT. lia.
Qed.
Example C20_example : exists outs q, q_run (2^64) q_new ex_ops = Ok (outs, q) /\ total (qitems q) < 2^64 - 1 /\
  fst (q_out_bytes (2^64) q 4) = [[Byte.x67; Byte.x67; Byte.x67]; [Byte.x68]] /\
  fst (q_out_bytes (2^64) q 5) = [[Byte.x67; Byte.x67; Byte.x67]; [Byte.x68]; [Byte.x64; Byte.x65]] /\
  fst (q_out_bytes (2^64) q 0) = [[Byte.x67; Byte.x67; Byte.x67]].
Proof. do 2 eexists. split; [vm_compute; reflexivity|]. repeat match goal with |- _ /\ _ => split end; (vm_compute; reflexivity). Qed.
Print Assumptions C20_batches.
