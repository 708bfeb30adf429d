(** Properties of ext::prefix_suffix_unpacker (C06-C08, C15, C60, C61). *)
From Coq Require Import List NArith Bool Lia.
From Verif Require Import M_Bytes M_Config M_Rx M_PrefixSuffix S_Affix.
From Verif Require L_Affix.
Import ListNotations.
Open Scope N_scope.

(** a new receiver waiting for its first bytes *)
Definition ps_start (c : cfg) (a : affix) (mem : list byte) : rxst pst :=
  start_read (ps_unpacker c a) (ps_init c mem).

(** C06: at every moment the application has exactly the non-empty messages whose last byte has been received *)
Theorem C06_prefix_suffix_delivers_exactly : forall c a mem awf bodies ds rest st o,
  cfg_ok c = true -> affix_ok c a = true -> lenN mem = bufsz c ->
  Forall (afits c a) bodies -> concat ds ++ rest = awire a bodies ->
  run awf (ps_unpacker c a) (ps_start c a mem) ds = Some (st, o) ->
  all_msgs o = ashown c a (acomplete a bodies (lenN (concat ds))) /\ any_err o = false.
Proof.
  intros c a mem awf bodies ds rest st o HC HA L F E R.
  destruct (L_Affix.affix_run c a HC HA awf mem bodies ds rest st o L F E R) as (H1 & H2 & _). auto.
Qed.

Definition ex_c : cfg := mk_cfg 10 false true (2^64 - 1).
(** prefix "<", suffix ">>" *)
Definition ex_a : affix := mk_affix [Byte.x3c] [Byte.x3e; Byte.x3e].

(** the body "ab>" is not admissible (suffix too early), "a>b" is *)
Example C06_example :
  cfg_ok ex_c = true /\ affix_ok ex_c ex_a = true /\
  Forall (afits ex_c ex_a) [[Byte.x61; Byte.x3e; Byte.x62]; []; [Byte.x63]] /\
  exists st o, run true (ps_unpacker ex_c ex_a) (ps_start ex_c ex_a (repeat Byte.xff 10))
     [[Byte.x3c; Byte.x61]; [Byte.x3e; Byte.x62; Byte.x3e; Byte.x3e; Byte.x3c; Byte.x3e]; [Byte.x3e; Byte.x3c; Byte.x63]; [Byte.x3e; Byte.x3e]] = Some (st, o)
    /\ all_msgs o = [[Byte.x61; Byte.x3e; Byte.x62]; [Byte.x63]].
Proof.
  split; [reflexivity|]. split; [reflexivity|]. split.
  - repeat apply Forall_cons; try apply Forall_nil; apply L_Affix.afits_check; vm_compute; reflexivity.
  - eexists. eexists. split; vm_compute; reflexivity.
Qed.
Print Assumptions C06_prefix_suffix_delivers_exactly.
(** no prefix, a suffix of one byte *)
Example C06_line_example : affix_ok ex_c (mk_affix [] [Byte.x0a]) = true /\
  exists st o, run true (ps_unpacker ex_c (mk_affix [] [Byte.x0a])) (ps_start ex_c (mk_affix [] [Byte.x0a]) (repeat Byte.xff 10)) [[Byte.x61; Byte.x62]; [Byte.x0a; Byte.x63]; [Byte.x0a]] = Some (st, o) /\
    all_msgs o = [[Byte.x61; Byte.x62]; [Byte.x63]].
Proof. split; [reflexivity|]. eexists. eexists. split; vm_compute; reflexivity. Qed.

(** C07, wanted: whatever arrives, the receiver reports an error or goes on reading *)
Definition C07_statement : Prop := forall c a mem awf ds st o,
  cfg_ok c = true -> affix_ok c a = true -> lenN mem = bufsz c ->
  run awf (ps_unpacker c a) (ps_start c a mem) ds = Some (st, o) ->
  any_err o = true \/ exists s sp t lim, st = Reading s sp t lim.

(** It is false: one read brings "<a>>" and the wrong byte "x"; the message is delivered, no error is
    reported, and the next read completes at once with 0 bytes, which ends reception. *)
Theorem C07_refuted : exists c a mem awf ds o,
  cfg_ok c = true /\ affix_ok c a = true /\ lenN mem = bufsz c /\
  run awf (ps_unpacker c a) (ps_start c a mem) ds = Some (Halted ZeroByteRead, o) /\
  all_msgs o = [[Byte.x61]] /\ any_err o = false.
Proof.
  exists ex_c, ex_a, (repeat Byte.xff 10), true, [[Byte.x3c; Byte.x61; Byte.x3e; Byte.x3e; Byte.x78]].
  eexists. repeat split; vm_compute; reflexivity.
Qed.
Corollary C07_statement_refuted : ~ C07_statement.
Proof.
  intros H. destruct C07_refuted as (c & a & mem & awf & ds & o & HC & HA & L & R & _ & E).
  destruct (H c a mem awf ds _ o HC HA L R) as [X|(s & sp & t & lim & X)]; congruence.
Qed.
Print Assumptions C07_statement_refuted.
Print Assumptions C07_refuted.

(** The part that holds: if the wrong prefix does not share a read with a complete message, it is reported
    with the block that completes as many bytes as the prefix has, and everything before was delivered.
    Missing for C07: wrong prefixes arriving in the same read as the end of a message (refuted above), and
    those behind a heartbeat that is still waiting for a following byte (see C08). *)
Theorem C07_wrong_prefix_reported_partial : forall c a mem awf bodies ds1 ds d st o,
  cfg_ok c = true -> affix_ok c a = true -> lenN mem = bufsz c ->
  Forall (afits c a) bodies -> Forall (fun b => b <> []) bodies ->
  concat ds1 = awire a bodies ->
  lenN (concat ds) < lenN (prefix a) -> lenN (prefix a) <= lenN (concat ds ++ d) ->
  takeN (lenN (prefix a)) (concat ds ++ d) <> prefix a ->
  run awf (ps_unpacker c a) (ps_start c a mem) (ds1 ++ ds ++ [d]) = Some (st, o) ->
  all_msgs o = ashown c a bodies /\ any_err o = true.
Proof. intros c a mem awf bodies ds1 ds d st o HC HA. exact (L_Affix.affix_bad_after c a HC HA awf mem bodies ds1 ds d st o). Qed.
Example C07_example :
  takeN (lenN (prefix ex_a)) (concat [] ++ [Byte.x78]) <> prefix ex_a /\
  exists st o, run false (ps_unpacker ex_c ex_a) (ps_start ex_c ex_a (repeat Byte.xff 10))
    ([[Byte.x3c; Byte.x61; Byte.x3e; Byte.x3e]] ++ [] ++ [[Byte.x78]]) = Some (st, o) /\ all_msgs o = [[Byte.x61]].
Proof. split; [vm_compute; congruence|]. eexists. eexists. split; vm_compute; reflexivity. Qed.
Print Assumptions C07_wrong_prefix_reported_partial.

(** C08, wanted: the block that brings the last byte of a heartbeat completes the read *)
Definition C08_statement : Prop := forall c a mem awf ds st o,
  cfg_ok c = true -> affix_ok c a = true -> lenN mem = bufsz c ->
  concat ds = amsg a [] ->
  run awf (ps_unpacker c a) (ps_start c a mem) ds = Some (st, o) -> o <> [].

(** It is false: "<>>" has arrived completely, yet no read completed. *)
Theorem C08_refuted : exists c a mem awf ds st,
  cfg_ok c = true /\ affix_ok c a = true /\ lenN mem = bufsz c /\ concat ds = amsg a [] /\
  run awf (ps_unpacker c a) (ps_start c a mem) ds = Some (st, []).
Proof.
  exists ex_c, ex_a, (repeat Byte.xff 10), true, [[Byte.x3c; Byte.x3e; Byte.x3e]].
  eexists. repeat split; vm_compute; reflexivity.
Qed.
Corollary C08_statement_refuted : ~ C08_statement.
Proof.
  intros H. destruct C08_refuted as (c & a & mem & awf & ds & st & HC & HA & L & E & R).
  apply (H c a mem awf ds st [] HC HA L E R). reflexivity.
Qed.
Print Assumptions C08_statement_refuted.
Print Assumptions C08_refuted.

(** The part that holds: whatever was received before, a heartbeat is noticed with the first byte behind it, be it
    good or bad. Missing for C08: the notice on the last byte of the heartbeat itself (refuted above). *)
Theorem C08_noticed_with_next_byte_partial : forall c a mem awf ds1 st1 o1 ds2 x st2 o2,
  cfg_ok c = true -> affix_ok c a = true -> lenN mem = bufsz c ->
  run awf (ps_unpacker c a) (ps_start c a mem) ds1 = Some (st1, o1) ->
  concat ds2 = amsg a [] ++ x -> x <> [] ->
  run awf (ps_unpacker c a) st1 ds2 = Some (st2, o2) -> o2 <> [].
Proof. intros c a mem awf ds1 st1 o1 ds2 x st2 o2 HC HA. exact (L_Affix.affix_heartbeat_after c a HC HA awf mem ds1 st1 o1 ds2 x st2 o2). Qed.
Example C08_example : exists st1 o1 st2 o2,
  run true (ps_unpacker ex_c ex_a) (ps_start ex_c ex_a (repeat Byte.xff 10)) [[Byte.x3c; Byte.x61; Byte.x3e; Byte.x3e]] = Some (st1, o1) /\
  run true (ps_unpacker ex_c ex_a) st1 [[Byte.x3c; Byte.x3e]; [Byte.x3e]; [Byte.x3c]] = Some (st2, o2) /\
  concat [[Byte.x3c; Byte.x3e]; [Byte.x3e]; [Byte.x3c]] = amsg ex_a [] ++ [Byte.x3c] /\ o2 = [mk_rxout [] false].
Proof. do 4 eexists. split; [vm_compute; reflexivity|]. split; [vm_compute; reflexivity|]. split; vm_compute; reflexivity. Qed.
Print Assumptions C08_noticed_with_next_byte_partial.

(** C15 for this framing: streams that differ only in heartbeats make the application see the same messages *)
Theorem C15_prefix_suffix_heartbeats_invisible : forall c a mem1 mem2 awf1 awf2 bodies1 bodies2 ds1 ds2 st1 st2 o1 o2,
  cfg_ok c = true -> affix_ok c a = true -> lenN mem1 = bufsz c -> lenN mem2 = bufsz c ->
  Forall (afits c a) bodies1 -> Forall (afits c a) bodies2 ->
  filter (fun b => match b with [] => false | _ => true end) bodies1 = filter (fun b => match b with [] => false | _ => true end) bodies2 ->
  concat ds1 = awire a bodies1 -> concat ds2 = awire a bodies2 ->
  run awf1 (ps_unpacker c a) (ps_start c a mem1) ds1 = Some (st1, o1) ->
  run awf2 (ps_unpacker c a) (ps_start c a mem2) ds2 = Some (st2, o2) ->
  all_msgs o1 = all_msgs o2.
Proof.
  intros c a mem1 mem2 awf1 awf2 b1 b2 ds1 ds2 st1 st2 o1 o2 HC HA L1 L2 F1 F2 E W1 W2 R1 R2.
  assert (E1 : concat ds1 ++ [] = awire a b1) by (rewrite app_nil_r; exact W1).
  assert (E2 : concat ds2 ++ [] = awire a b2) by (rewrite app_nil_r; exact W2).
  destruct (C06_prefix_suffix_delivers_exactly c a mem1 awf1 b1 ds1 [] st1 o1 HC HA L1 F1 E1 R1) as [-> _].
  destruct (C06_prefix_suffix_delivers_exactly c a mem2 awf2 b2 ds2 [] st2 o2 HC HA L2 F2 E2 R2) as [-> _].
  rewrite W1, W2, !(L_Affix.acomplete_all c a HC HA). unfold ashown. rewrite E. reflexivity.
Qed.
Example C15_prefix_suffix_example : exists st1 st2 o1 o2,
  run true (ps_unpacker ex_c ex_a) (ps_start ex_c ex_a (repeat Byte.xff 10)) [[Byte.x3c; Byte.x61; Byte.x3e; Byte.x3e]] = Some (st1, o1) /\
  run true (ps_unpacker ex_c ex_a) (ps_start ex_c ex_a (repeat Byte.x3e 10)) [[Byte.x3c; Byte.x3e; Byte.x3e; Byte.x3c; Byte.x61; Byte.x3e; Byte.x3e]; [Byte.x3c; Byte.x3e; Byte.x3e]] = Some (st2, o2) /\
  awire ex_a [[]; [Byte.x61]; []] = [Byte.x3c; Byte.x3e; Byte.x3e; Byte.x3c; Byte.x61; Byte.x3e; Byte.x3e; Byte.x3c; Byte.x3e; Byte.x3e].
Proof. do 4 eexists. repeat split; vm_compute; reflexivity. Qed.
Print Assumptions C15_prefix_suffix_heartbeats_invisible.

(** C60 for this framing: a link break yields no made-up message, and after reset() any following stream is
    received exactly (unless reception had already ended as in C07_refuted) *)
Theorem C60_prefix_suffix_clean_after_break : forall c a mem awf ds st o,
  cfg_ok c = true -> affix_ok c a = true -> lenN mem = bufsz c ->
  run awf (ps_unpacker c a) (ps_start c a mem) ds = Some (st, o) ->
  st = Halted ZeroByteRead \/
  exists s, read_error (ps_unpacker c a) st = Ok (Some s, []) /\
    forall awf' bodies ds' rest st' o',
      Forall (afits c a) bodies -> concat ds' ++ rest = awire a bodies ->
      run awf' (ps_unpacker c a) (start_read (ps_unpacker c a) (u_reset (ps_unpacker c a) s)) ds' = Some (st', o') ->
      all_msgs o' = ashown c a (acomplete a bodies (lenN (concat ds'))) /\ any_err o' = false.
Proof.
  intros c a mem awf ds st o HC HA L R.
  destruct (L_Affix.affix_break c a HC HA awf mem ds st o L R) as [H|(s & mem' & E & E2 & L')]; [left; exact H|right].
  exists s. split; [exact E|]. intros awf' bodies ds' rest st' o' F W R'.
  change (u_reset (ps_unpacker c a) s) with (ps_reset c s) in R'. rewrite E2 in R'.
  exact (C06_prefix_suffix_delivers_exactly c a mem' awf' bodies ds' rest st' o' HC HA L' F W R').
Qed.
(** the link breaks in the middle of "<ab>>" *)
Example C60_prefix_suffix_example : exists st o s,
  run true (ps_unpacker ex_c ex_a) (ps_start ex_c ex_a (repeat Byte.xff 10)) [[Byte.x3c; Byte.x61]; [Byte.x62; Byte.x3e]] = Some (st, o) /\
  read_error (ps_unpacker ex_c ex_a) st = Ok (Some s, []).
Proof. do 3 eexists. split; vm_compute; reflexivity. Qed.
Print Assumptions C60_prefix_suffix_clean_after_break.

(** C61: whatever arrives, no assertion fails, no memory outside the buffer is touched and the buffer is never full *)
Theorem C61_prefix_suffix_memory_safe : forall c a mem awf ds st o,
  cfg_ok c = true -> affix_ok c a = true -> lenN mem = bufsz c ->
  run awf (ps_unpacker c a) (ps_start c a mem) ds = Some (st, o) ->
  st = Halted ZeroByteRead \/ exists s sp t lim, st = Reading s sp t lim /\ 0 < lim /\ t + lim <= sp.
Proof. intros c a mem awf ds st o HC HA. exact (L_Affix.affix_safe c a HC HA awf mem ds st o). Qed.
(** a message longer than the buffer *)
Example C61_example : exists s sp t lim o,
  run true (ps_unpacker ex_c ex_a) (ps_start ex_c ex_a (repeat Byte.xff 10))
    [[Byte.x3c; Byte.x61; Byte.x61; Byte.x61]; [Byte.x61; Byte.x61; Byte.x61; Byte.x61; Byte.x61; Byte.x3e]; [Byte.x3e; Byte.x3c]] = Some (Reading s sp t lim, o)
  /\ any_err o = true.
Proof. do 5 eexists. split; vm_compute; reflexivity. Qed.
Print Assumptions C61_prefix_suffix_memory_safe.
