(** C58: safe_send_msg; C77: sync_safe_send_msg. *)
From Coq Require Import List NArith Bool Lia ZifyBool ZifyNat ZifyN.
From Verif Require Import M_Bytes M_Config M_PrefixSuffix M_Packer S_Frame S_Affix S_Packer L_Packer P_Packer M_SafeSend.
Import ListNotations.
Open Scope N_scope.

Definition is_array (x : arg) : bool := match x with AArray _ => true | _ => false end.
Lemma not_array x : is_array x = false -> forall bs, x <> AArray bs.
Proof. destruct x; cbn; congruence. Qed.
Lemma send_total c nd can x : cfg_ok c = true -> bufsz c < head_range c -> arg_ok c x -> exists ok items, send_msg c nd can x = Ok (ok, items).
Proof.
  intros HC HR HX. destruct can; [destruct (send_msg_ok c nd x HC HR HX) as (ok & it & E & _); eauto|]. unfold send_msg, send_items. cbn [negb]. eauto.
Qed.

(** ** C58 *)
(** true: the message is queued, once; false: it is not, and the link was not ready; and a call that meets room does not go on looping *)
Definition C58_statement : Prop := forall c nd x env r items, cfg_ok c = true -> bufsz c < head_range c -> arg_ok c x -> arg_body x <> [] -> safe_send c nd x env = Ok (r, items) ->
  (r = Some true -> concat items = frame c (arg_body x)) /\
  (r = Some false -> items = [] /\ exists e, In e env /\ ready e = false) /\
  ((exists e, In e env /\ room e = true) -> r <> None).
Lemma spin c nd m n : cfg_ok c = true -> bufsz c < head_range c -> arg_ok c (AOne m) -> fits c m = false -> safe_send c nd (AOne m) (repeat (mk_att true true) n) = Ok (None, []).
Proof.
  intros HC HR HX HF. induction n as [|n IH]; [reflexivity|]. cbn [repeat safe_send room ready]. rewrite (refused c nd (AOne m) HC HR HX (not_array (AOne m) eq_refl) HF). cbn [bind]. exact IH.
Qed.
(** False: a message that is too long is tried again forever (message and container overloads); *)
Theorem C58_spin_refuted : exists c x, cfg_ok c = true /\ bufsz c < head_range c /\ arg_ok c x /\ forall nd n, safe_send c nd x (repeat (mk_att true true) n) = Ok (None, []).
Proof.
  exists ex_c, (AOne (repeat Byte.x61 8)). assert (A : cfg_ok ex_c = true) by reflexivity. assert (B : bufsz ex_c < head_range ex_c) by (vm_compute; reflexivity). assert (C : arg_ok ex_c (AOne (repeat Byte.x61 8))) by (vm_compute; reflexivity).
  split; [exact A|]. split; [exact B|]. split; [exact C|]. intros nd n. apply spin; auto.
Qed.
Print Assumptions C58_spin_refuted.
(** or dropped with true being returned (array overloads). *)
Theorem C58_dropped_refuted : exists c x, cfg_ok c = true /\ arg_ok c x /\ safe_send c false x [mk_att true true] = Ok (Some true, []) /\ lenN (arg_body x) = 8.
Proof.
  destruct C62_refuted as (c & x & A & B & C & D). exists c, x. split; [exact A|]. split; [exact B|]. split; [|exact D]. cbn [safe_send room ready]. rewrite C. reflexivity.
Qed.
Print Assumptions C58_dropped_refuted.
Theorem C58_statement_refuted : ~ C58_statement.
Proof.
  intros H. destruct C58_spin_refuted as (c & x & A & B & C & D). destruct (arg_body x) as [|b0 b] eqn:E.
  - pose proof (D true 1%nat) as D1. destruct (send_total c true true x A B C) as (ok & it & S). cbn [repeat safe_send room ready] in D1. destruct (send_msg_ok c true x A B C) as (ok' & it' & S' & F & G). rewrite S in S'. injection S' as <- <-. rewrite S in D1. cbn [bind] in D1. destruct ok; [congruence|]. destruct G as [G|G]; [congruence|]. rewrite E in G. unfold fits in G. unfold cfg_ok in A. change (lenN []) with 0 in G. lia.
  - destruct (H c true x _ _ _ A B C ltac:(rewrite E; discriminate) (D true 1%nat)) as (_ & _ & K). apply K; [|reflexivity]. exists (mk_att true true). split; [left; reflexivity|reflexivity].
Qed.
Print Assumptions C58_statement_refuted.
(** All of it holds for messages that fit; *)
Theorem C58_fits_partial : forall c nd x env r items, cfg_ok c = true -> bufsz c < head_range c -> arg_ok c x -> arg_body x <> [] -> fits c (arg_body x) = true -> safe_send c nd x env = Ok (r, items) ->
  (r = Some true -> concat items = frame c (arg_body x)) /\
  (r = Some false -> items = [] /\ exists e, In e env /\ ready e = false) /\
  ((exists e, In e env /\ room e = true) -> r <> None).
Proof.
  intros c nd x env r items HC HR HX HN HF. destruct (send_fits c nd x HC HX HF HN) as (it & E1 & E2). revert r items. induction env as [|[a b] env IH]; intros r items H; cbn [safe_send room ready] in H.
  - injection H as <- <-. split; [discriminate|]. split; [discriminate|]. intros (e & [] & _).
  - destruct a.
    + rewrite E1 in H. cbn [bind] in H. injection H as <- <-. split; [intros _; exact E2|]. split; [discriminate|]. intros _. discriminate.
    + unfold send_msg, send_items in H. cbn [negb bind] in H. destruct b.
      * destruct (IH _ _ H) as (P & Q & R). split; [exact P|]. split; [intros X; destruct (Q X) as (Y & e & I & J); split; [exact Y|exists e; split; [right; exact I|exact J]]|]. intros (e & [<-|I] & J); [discriminate|]. apply R. eauto.
      * injection H as <- <-. split; [discriminate|]. split; [intros _; split; [reflexivity|]; exists (mk_att false false); split; [left; reflexivity|reflexivity]|]. discriminate.
Qed.
Print Assumptions C58_fits_partial.
Example C58_example : arg_ok ex_c (AOne (repeat Byte.x61 7)) /\ fits ex_c (repeat Byte.x61 7) = true /\
  safe_send ex_c false (AOne (repeat Byte.x61 7)) [mk_att false true; mk_att false true; mk_att true true] = Ok (Some true, [[Byte.x00; Byte.x09]; repeat Byte.x61 7]).
Proof. split; [vm_compute; reflexivity|]. split; vm_compute; reflexivity. Qed.
(** and for every message: nothing goes wrong in memory, false means not queued. *)
Theorem C58_false_means_not_queued : forall c nd x env, cfg_ok c = true -> bufsz c < head_range c -> arg_ok c x -> exists r items, safe_send c nd x env = Ok (r, items) /\ (r <> Some true -> items = []).
Proof.
  intros c nd x env HC HR HX. induction env as [|[a b] env IH]; [do 2 eexists; split; reflexivity|]. cbn [safe_send room ready]. destruct (send_total c nd a x HC HR HX) as (ok & it & E). rewrite E. cbn [bind]. destruct ok; [do 2 eexists; split; [reflexivity|congruence]|]. destruct b; [exact IH|]. do 2 eexists. split; reflexivity.
Qed.
Print Assumptions C58_false_means_not_queued.

(** ** C77: SUCCESS of sync_safe_send_msg means handed over to the OS exactly once, anything else not at all *)
Definition C77_statement : Prop := forall c nd byref x env r h, cfg_ok c = true -> bufsz c < head_range c -> arg_ok c x -> arg_body x <> [] -> fits c (arg_body x) = true ->
  sync_safe_send c nd byref x env = Ok (Some r, h) -> h = match r with Success => [frame c (arg_body x)] | _ => [] end.
(** False: a message that timed out is sent again though the first one is still queued; *)
Theorem C77_twice_refuted : exists c x env, cfg_ok c = true /\ arg_ok c x /\ fits c (arg_body x) = true /\
  sync_safe_send c false false x env = Ok (Some Success, [frame c (arg_body x); frame c (arg_body x)]).
Proof. exists ex_c, (AOne [Byte.x61]), [mk_satt true true false Timeout true; mk_satt true true false Success false]. split; [reflexivity|]. split; [vm_compute; reflexivity|]. split; vm_compute; reflexivity. Qed.
Print Assumptions C77_twice_refuted.
(** a message passed by reference is gone after the first attempt; the second one sends an empty message and reports success. *)
Theorem C77_lost_refuted : exists c x env, cfg_ok c = true /\ arg_ok c x /\ fits c (arg_body x) = true /\ arg_body x <> [] /\
  sync_safe_send c false true x env = Ok (Some Success, [frame c []]).
Proof. exists ex_c, (AOne [Byte.x61]), [mk_satt true true false NotApplicable false; mk_satt true true false Success false]. split; [reflexivity|]. split; [vm_compute; reflexivity|]. split; [vm_compute; reflexivity|]. split; [discriminate|vm_compute; reflexivity]. Qed.
Print Assumptions C77_lost_refuted.
Theorem C77_statement_refuted : ~ C77_statement.
Proof.
  intros H. specialize (H ex_c false true (AOne [Byte.x61]) [mk_satt true true false NotApplicable false; mk_satt true true false Success false] Success [frame ex_c []]). assert (X : [frame ex_c []] = [frame ex_c [Byte.x61]]) by (apply H; try (vm_compute; reflexivity); discriminate). vm_compute in X. discriminate.
Qed.
Print Assumptions C77_statement_refuted.
(** It holds when no attempt times out and the message is not consumed by the first attempt (const and array overloads). *)
Theorem C77_exact_partial : forall c nd byref x env r h, cfg_ok c = true -> bufsz c < head_range c -> arg_ok c x -> arg_body x <> [] -> fits c (arg_body x) = true ->
  byref = false \/ is_array x = true -> Forall (fun e => s_reply e <> Timeout) env ->
  sync_safe_send c nd byref x env = Ok (Some r, h) -> h = match r with Success => [frame c (arg_body x)] | _ => [] end.
Proof.
  intros c nd byref x env r h HC HR HX HN HF HB. destruct (send_fits c nd x HC HX HF HN) as (it & E1 & E2). assert (EX : emptied byref x = x) by (unfold emptied; destruct HB as [->|HB]; [reflexivity|]; destruct byref, x; try discriminate; reflexivity).
  assert (NE : it <> []) by (intros ->; cbn in E2; apply (f_equal lenN) in E2; rewrite L_Frame.lenN_frame in E2; change (lenN []) with 0 in E2; unfold head_len in E2; destruct (huge c); lia).
  revert r h. induction env as [|[a b st rp lt] env IH]; intros r h F H; cbn [sync_safe_send] in H; [discriminate|]. apply Forall_cons_iff in F as (F1 & F). cbn [s_reply] in F1. unfold sync_once in H. cbn [s_room s_ready s_stop s_reply s_late] in H. destruct a.
  - rewrite E1, EX in H. cbn [bind negb] in H. destruct st.
    + cbn [bind] in H. destruct b; [|injection H as <- <-; reflexivity]. destruct (sync_safe_send c nd byref x env) as [[r2 h2]|] eqn:E; [|discriminate]. cbn [bind app] in H. injection H as -> ->. apply IH; auto.
    + destruct it as [|i0 it]; [congruence|]. rewrite E2 in H. destruct rp; cbn [bind] in H; [injection H as <- <-; reflexivity| |congruence]. destruct b; [|injection H as <- <-; reflexivity]. destruct (sync_safe_send c nd byref x env) as [[r2 h2]|] eqn:E; [|discriminate]. cbn [bind app] in H. injection H as -> ->. apply IH; auto.
  - unfold send_msg at 1, send_items at 1 in H. cbn [negb bind] in H. destruct b; [|injection H as <- <-; reflexivity]. destruct (sync_safe_send c nd byref x env) as [[r2 h2]|] eqn:E; [|discriminate]. cbn [bind app] in H. injection H as -> ->. apply IH; auto.
Qed.
Print Assumptions C77_exact_partial.
Example C77_example : let env := [mk_satt false true false Success false; mk_satt true true false NotApplicable false; mk_satt true true false Success false] in
  Forall (fun e => s_reply e <> Timeout) env /\ sync_safe_send ex_c false false (AOne [Byte.x61]) env = Ok (Some Success, [frame ex_c [Byte.x61]]).
Proof. split; [constructor; [discriminate|constructor; [discriminate|constructor; [discriminate|constructor]]]|vm_compute; reflexivity]. Qed.
