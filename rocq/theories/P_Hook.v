(** C138: functions registered in place of virtual functions. *)
From Coq Require Import List Bool Arith ZArith Lia.
From Verif Require Import M_Hook S_Hook.
Import ListNotations.
Open Scope Z_scope.

(** The whole claim: whatever was registered before (l), the event calls the function registered last, once, with the event's argument and
    first; registered without a word about pass_on, the library's duties are still done; and the number a registered function gives is the
    number the library goes by. *)
Definition C138_statement : Prop := forall l f arg rc rl l',
  exists e, nth_error (hrun h0 (l ++ HFire f arg rc rl :: l')) (length l) = Some e /\
    callback_first e /\
    (forall c po, last_reg f l = Some (c, po) -> callbacks e = [(f, c, arg)]) /\
    (last_reg f l = None -> callbacks e = []) /\
    (forall c, duty f -> last_reg f l = Some (c, None) -> owns e = [(f, arg)]) /\
    (forall c po, number f -> last_reg f l = Some (c, po) -> results e = [rc]).

(** what the slots hold after the operations l *)
Fixpoint after (h : slots) (l : list hop) : slots := match l with [] => h | a :: l' => after (fst (hstep h a)) l' end.
Lemma hrun_nth : forall l h a l', nth_error (hrun h (l ++ a :: l')) (length l) = Some (snd (hstep (after h l) a)).
Proof.
  induction l as [|b l IH]; intros h a l'; cbn [app length hrun after].
  - destruct (hstep h a); reflexivity.
  - destruct (hstep h b) as [h1 e1] eqn:E; cbn [fst nth_error]. exact (IH h1 a l').
Qed.
Lemma after_last : forall l h f, after h l f =
  match last_reg f l with Some (c, po) => (Some c, negb (match po with Some b => b | None => pass_default f end)) | None => h f end.
Proof.
  induction l as [|a l IH]; intros h f; [reflexivity|].
  destruct a as [g c po|g arg rc rl]; cbn [after hstep fst last_reg]; rewrite IH; [|reflexivity].
  destruct (last_reg f l) as [[c1 po1]|]; [reflexivity|]. unfold register.
  destruct (fn_eq_dec f g) as [->|]; reflexivity.
Qed.
Lemma nth_fire : forall l f arg rc rl l',
  nth_error (hrun h0 (l ++ HFire f arg rc rl :: l')) (length l) = Some (fire (after h0 l) f arg rc rl).
Proof. intros. rewrite hrun_nth. reflexivity. Qed.

Lemma first_ok : forall f arg o t, callbacks t = [] -> (forall a g x b, t = a ++ VOwn g x :: b -> callbacks b = []) -> callback_first (told f arg o ++ t).
Proof.
  intros f arg o t Ht H a g x b E. destruct o as [c|]; cbn [told app] in E; [|exact (H a g x b E)].
  destruct a as [|e a]; [discriminate E|]. injection E as _ E. exact (H a g x b E).
Qed.
Lemma tail_ok : forall (t : list hev), callbacks t = [] -> forall a g x b, t = a ++ VOwn g x :: b -> callbacks b = [].
Proof.
  intros t H a g x b ->. unfold callbacks in *. rewrite flat_map_app in H. apply app_eq_nil in H. destruct H as [_ H]. exact H.
Qed.
Lemma fire_first : forall h f arg rc rl, callback_first (fire h f arg rc rl).
Proof.
  intros h f arg rc rl. unfold fire. destruct (h f) as [o s].
  destruct (kind_of f); repeat match goal with |- context[if ?b then _ else _] => destruct b end;
    apply first_ok; try reflexivity; apply tail_ok; reflexivity.
Qed.
Lemma fire_callbacks : forall h f arg rc rl, callbacks (fire h f arg rc rl) = match fst (h f) with Some c => [(f, c, arg)] | None => [] end.
Proof.
  intros h f arg rc rl. unfold fire. destruct (h f) as [[c|] s]; cbn [fst told];
  destruct (kind_of f); repeat match goal with |- context[if ?b then _ else _] => destruct b end; reflexivity.
Qed.

(** What holds: everything but the two points below; the library's own function runs exactly if nothing is registered or pass_on is set and,
    for functions that answer yes or no, the registered one said yes; the results. *)
Theorem C138_partial : forall l f arg rc rl l',
  exists e, nth_error (hrun h0 (l ++ HFire f arg rc rl :: l')) (length l) = Some e /\
    callback_first e /\
    (forall c po, last_reg f l = Some (c, po) -> callbacks e = [(f, c, arg)]) /\
    (last_reg f l = None -> callbacks e = [] /\ owns e = [(f, arg)]) /\
    (forall c, duty f -> f <> On_heartbeat_error -> last_reg f l = Some (c, None) -> owns e = [(f, arg)]) /\
    (forall c, On_heartbeat_error = f -> rc <> 0 -> last_reg f l = Some (c, None) -> owns e = [(f, arg)]) /\
    (forall c, last_reg f l = Some (c, Some false) -> owns e = []) /\
    (forall c, last_reg f l = Some (c, Some true) -> ~ yesno f \/ rc <> 0 -> owns e = [(f, arg)]) /\
    (forall c, number f -> last_reg f l = Some (c, None) \/ last_reg f l = Some (c, Some false) -> results e = [rc]) /\
    (number f -> last_reg f l = None -> results e = [rl]) /\
    (forall c po, yesno f -> last_reg f l = Some (c, po) -> rc = 0 -> results e = [0]) /\
    (forall c, yesno f -> last_reg f l = Some (c, Some true) -> rl = 0 -> results e = [0]) /\
    (forall c, yesno f -> last_reg f l = Some (c, Some true) -> rc <> 0 -> rl <> 0 -> results e = [1]) /\
    (forall c, yesno f -> last_reg f l = Some (c, Some false) -> rc <> 0 -> results e = [1]).
Proof.
  intros l f arg rc rl l'. exists (fire (after h0 l) f arg rc rl).
  split; [apply nth_fire|]. split; [apply fire_first|].
  assert (A := after_last l h0 f).
  assert (F := fire_callbacks (after h0 l) f arg rc rl). rewrite A in F.
  split; [intros c po E; rewrite E in F; exact F|].
  split; [intros E; rewrite E in F; split; [exact F|]|]; unfold fire, duty, number, yesno; rewrite A; clear A F.
  - rewrite E. cbn [h0]. destruct f; reflexivity.
  - destruct (Z.eq_dec rc 0) as [->|Nc]; destruct (Z.eq_dec rl 0) as [->|Nl];
      try (apply Z.eqb_neq in Nc as Bc; rewrite Bc); try (apply Z.eqb_neq in Nl as Bl; rewrite Bl);
    (repeat match goal with |- _ /\ _ => split end); intros;
    repeat match goal with
    | H : _ \/ _ |- _ => destruct H
    end;
    repeat match goal with
    | H : last_reg _ _ = _ |- _ => rewrite H; clear H
    end;
    try solve [subst f; cbn; congruence];
    try solve [destruct f; cbn in *; (congruence || (exfalso; intuition congruence) || reflexivity)].
Qed.

(** async_accept_num with pass_on: 16 is given, the library goes by its own 4 *)
Theorem C138_number_refuted : exists l f arg rc rl e, number f /\ last_reg f l = Some (7%nat, Some true) /\
  nth_error (hrun h0 (l ++ [HFire f arg rc rl])) (length l) = Some e /\ results e <> [rc].
Proof.
  exists [HReg Async_accept_num 7 (Some true)], Async_accept_num, 0%nat, 16, 4. eexists.
  split; [cbn; intuition|]. split; [reflexivity|]. split; [vm_compute; reflexivity|]. vm_compute. intros H; discriminate H.
Qed.
(** on_heartbeat_error, registered with the default pass_on, answers no (do not go on with the heartbeat): the link is not shut down *)
Theorem C138_heartbeat_refuted : exists l f arg rc rl e, duty f /\ last_reg f l = Some (7%nat, None) /\
  nth_error (hrun h0 (l ++ [HFire f arg rc rl])) (length l) = Some e /\ owns e = [].
Proof.
  exists [HReg On_heartbeat_error 7 None], On_heartbeat_error, 0%nat, 0, 0. eexists.
  split; [cbn; intuition|]. split; [reflexivity|]. split; [vm_compute; reflexivity|]. vm_compute. reflexivity.
Qed.
Theorem C138_statement_refuted : ~ C138_statement.
Proof.
  intros S. destruct (S [HReg On_heartbeat_error 7 None] On_heartbeat_error 0%nat 0 0 []) as (e & E & _ & _ & _ & D & _).
  vm_compute in E. injection E as <-. specialize (D 7%nat). cbn in D.
  assert (X := D ltac:(unfold duty; cbn; intuition) eq_refl). discriminate X.
Qed.

(** A case of the hypotheses: two registrations of on_close and one of on_msg_handle; the last of on_close counts *)
Example C138_case :
  let l := [HReg On_close 1 (Some false); HReg On_msg_handle 2 None; HFire On_close 9 0 0; HReg On_close 3 None] in
  last_reg On_close l = Some (3%nat, None) /\ last_reg On_msg_handle l = Some (2%nat, None) /\
  hrun h0 (l ++ [HFire On_close 5 0 0; HFire On_msg_handle 6 1 0; HFire On_accept 4 0 1]) =
    [[]; []; [VCallback On_close 1 9]; []; [VCallback On_close 3 5; VOwn On_close 5];
     [VCallback On_msg_handle 2 6; VResult On_msg_handle 1]; [VOwn On_accept 4; VResult On_accept 1]].
Proof. vm_compute. repeat split. Qed.

Print Assumptions C138_partial.
Print Assumptions C138_number_refuted.
Print Assumptions C138_heartbeat_refuted.
Print Assumptions C138_statement_refuted.
