(** Invariants of M_Link.v. *)
From Coq Require Import List ZArith Bool Arith Lia.
From Verif Require Import M_Link.
Import ListNotations.
Open Scope Z_scope.

Lemma link_eq_spec : forall a b, link_eq a b = true <-> a = b.
Proof. intros [] []; cbn; split; congruence. Qed.
Lemma length_upd_at : forall (A : Type) i (x : A) l, length (upd_at i x l) = length l.
Proof. induction i; intros x [|y l]; cbn; auto. Qed.
Lemma length_del_at : forall (A : Type) i (l : list A) x, nth_error l i = Some x -> length l = S (length (del_at i l)).
Proof. induction i; intros [|y l] x H; cbn in *; try discriminate; auto. f_equal. eauto. Qed.
Lemma ksteps_app : forall cl max l1 l2 s,
  ksteps cl max s (l1 ++ l2) = match ksteps cl max s l1 with None => None | Some (s1, t1) => match ksteps cl max s1 l2 with None => None | Some (s2, t2) => Some (s2, t1 ++ t2) end end.
Proof.
  intros cl max; induction l1 as [|a l1 IH]; intros l2 s; cbn [ksteps app]; [ destruct (ksteps cl max s l2) as [[? ?]|]; reflexivity |].
  destruct (kstep cl max s a) as [[s1 t1]|]; [|reflexivity]. rewrite IH. destruct (ksteps cl max s1 l1) as [[s2 t2]|]; [|reflexivity].
  destruct (ksteps cl max s2 l2) as [[s3 t3]|]; [|reflexivity]. now rewrite app_assoc.
Qed.

Lemma on_t_stop : forall t, (on_t (stop_c t) <= on_t t)%nat.
Proof. intros []; cbn; lia. Qed.
Lemma on_d_stop : forall t, (on_d (stop_d t) <= on_d t)%nat.
Proof. intros []; cbn; lia. Qed.
Lemma stop_s_err : forall t w, stop_s t = SErr w -> t = SErr w.
Proof. intros [] w; cbn; congruence. Qed.

(** connecting: the timer, the attempts and the delaying timer *)
Definition toks (s : kst) : nat := (on_t (k_conn s) + length (k_att s) + on_d (k_delay s))%nat.

Record KI (cl : bool) (s : kst) : Prop := mk_KI {
  ki_tok : (toks s <= 1)%nat;
  ki_brk : (toks s = 1)%nat -> k_status s = BROKEN;
  ki_idle : k_started s = false -> k_closing s = false -> k_status s = BROKEN /\ toks s = 0%nat;
  ki_excl : k_started s = true -> k_closing s = false;
  ki_g2 : k_pc s = PGrace2 -> k_status s = CONNECTED;
  ki_pc : k_pc s = PClose false -> k_status s = FORCE;
  ki_srv : cl = false -> toks s = 0%nat;
  ki_reads : (k_reads s <> 0)%nat -> k_status s <> BROKEN;
  ki_perr : forall w, k_pc s = PErr w -> k_status s <> BROKEN;
  ki_serr : forall w, k_sd s = SErr w -> k_status s <> BROKEN
}.

Ltac kproj := cbn [k_started k_closing k_status k_need k_conn k_att k_delay k_sd k_reads k_link k_posts k_pc k_starts
  stop_timers post kconnected set_status set_need set_conn set_att set_delay set_sd set_reads set_link set_posts set_pc set_starts set_run kforce kclose fst snd] in *.
Ltac kopen :=
  repeat match goal with
  | H : context [match ?x with _ => _ end] |- _ =>
      lazymatch type of H with _ = Some _ => idtac end;
      lazymatch x with context [match _ with _ => _ end] => fail | _ => idtac end;
      let E := fresh "E" in destruct x eqn:E; kproj
  | H : None = Some _ |- _ => discriminate H
  end;
  repeat match goal with
  | H : Some _ = Some _ |- _ => inversion H; subst; clear H
  | H : (_, _) = (_, _) |- _ => inversion H; subst; clear H
  end.
Ltac kdo H := unfold kstep, kforce, kclose in H; kproj; kopen; kproj.
Ltac klists := rewrite ?app_length, ?map_length, ?length_upd_at in *; cbn [length] in *.

Lemma KI_k0 : forall cl n, KI cl (k0 n).
Proof. intros cl n. constructor; cbn; intros; try congruence; try lia; auto. Qed.

Lemma KI_step : forall cl max s a s' t, KI cl s -> kstep cl max s a = Some (s', t) -> KI cl s'.
Proof.
  intros cl max s a s' t [I1 I2 I3 I4 I5 I6 I7 I8 I9 I10] H.
  destruct s as [st clo sta nd co at_ de sd rd lk po pc ss]. unfold toks in *. kproj.
  destruct a; kdo H; 
  try (match goal with E : nth_error _ _ = Some _ |- _ => pose proof (length_del_at _ _ _ _ E) end);
  rewrite ?Bool.andb_true_iff, ?Bool.andb_false_iff, ?Bool.negb_true_iff, ?Bool.negb_false_iff in *;
  repeat match goal with H : _ /\ _ |- _ => destruct H end;
  repeat match goal with H : link_eq _ _ = true |- _ => apply link_eq_spec in H; subst end;
  repeat match goal with H : (kcalls _ =? 0)%nat = true |- _ => apply Nat.eqb_eq in H; unfold kcalls in H; kproj end.
  all: klists; cbn [on_t on_d on_s on_p] in *.
  all: constructor; unfold toks; kproj; klists; cbn [on_t on_d on_s on_p] in *; intros; subst.
  all: try assumption; try congruence.
  all: repeat match goal with
       | |- context [on_t (stop_c ?t)] => lazymatch goal with H : (on_t (stop_c t) <= _)%nat |- _ => fail | _ => pose proof (on_t_stop t) end
       | H0 : context [on_t (stop_c ?t)] |- _ => lazymatch goal with H : (on_t (stop_c t) <= _)%nat |- _ => fail | _ => pose proof (on_t_stop t) end
       | |- context [on_d (stop_d ?t)] => lazymatch goal with H : (on_d (stop_d t) <= _)%nat |- _ => fail | _ => pose proof (on_d_stop t) end
       | H0 : context [on_d (stop_d ?t)] |- _ => lazymatch goal with H : (on_d (stop_d t) <= _)%nat |- _ => fail | _ => pose proof (on_d_stop t) end
       end.
  all: try (match goal with |- (_ <= _)%nat => lia end).
  all: try solve [ eauto | apply I4; congruence | apply I2; lia | assert (X := I2 ltac:(lia)); congruence
                 | match goal with H : stop_s _ = SErr _ |- _ => apply stop_s_err in H; eauto end
                 | destruct I3 as [? ?]; [assumption | assumption |]; first [ congruence | lia | split; [congruence | lia] ]
                 | split; [ first [ congruence | apply I2; lia ] | lia ] | assert (X := I7 eq_refl); lia
                 | assert (X := I5 eq_refl); congruence | assert (X := I6 eq_refl); congruence | apply I8; congruence | exfalso; lia
                 | intro; subst; first [ eapply I9; eauto | eapply I10; eauto | apply I8; congruence ] ].
  all: try (assert (X := I2 ltac:(lia)); subst; cbn in *; congruence).
  all: try (match goal with E : link_eq ?x BROKEN = false |- _ => destruct x; try discriminate E end; cbn in *; solve [ destruct I3; [assumption | assumption | congruence] | assert (X := I2 ltac:(lia)); congruence ]).
  all: try (cbn in *; exfalso; lia).
  all: try (destruct I3; [assumption | assumption |]; assert (X := I6 eq_refl); congruence).
  all: try (pose proof (I5 eq_refl)); try (pose proof (I6 eq_refl)); try (destruct I3; [congruence | congruence |]); try (assert (X := I2 ltac:(lia))); try (exfalso; congruence); try assumption.
Qed.
Lemma KI_steps : forall cl max l s s' t, KI cl s -> ksteps cl max s l = Some (s', t) -> KI cl s'.
Proof.
  intros cl max; induction l as [|a l IH]; intros s s' t I H; cbn in H; [injection H as <- <-; exact I|].
  destruct (kstep cl max s a) as [[s1 t1]|] eqn:E; [|discriminate]. destruct (ksteps cl max s1 l) as [[s2 t2]|] eqn:E2; [|discriminate].
  injection H as <- <-. eapply IH; [eapply KI_step; eassumption | eassumption].
Qed.

(** the timer of a graceful shutdown *)
Definition sd_on (s : kst) : Prop := match k_sd s with SOff => False | _ => True end.
Definition forcing (s : kst) : Prop := In RForce (k_posts s) \/ match k_pc s with PErr _ | PForce | PShut => True | _ => False end.
Record KS (s : kst) : Prop := mk_KS {
  ks_sd : k_status s = CONNECTED \/ k_status s = BROKEN -> k_sd s = SOff;
  ks_pct : k_pc s = PClose true -> k_status s = BROKEN \/ k_status s = CONNECTED;
  ks_live : k_started s = true -> k_status s = GRACEFUL -> sd_on s \/ forcing s }.
Lemma KS_k0 : forall n, KS (k0 n).
Proof. constructor; cbn; intros; congruence || auto. Qed.
Lemma stop_s_off : forall t, t = SOff -> stop_s t = SOff.
Proof. intros t ->. reflexivity. Qed.
Lemma KS_step : forall cl max s a s' t, KI cl s -> KS s -> kstep cl max s a = Some (s', t) -> KS s'.
Proof.
  intros cl max s a s' t [I1 I2 I3 I4 I5 I6 I7 I8 I9 I10] [J1 J2 J3] H.
  destruct s as [st clo sta nd co at_ de sd rd lk po pc ss]. unfold toks, sd_on, forcing in *. kproj.
  destruct a; kdo H; 
  try (match goal with E : nth_error _ _ = Some _ |- _ => pose proof (length_del_at _ _ _ _ E) end);
  rewrite ?Bool.andb_true_iff, ?Bool.andb_false_iff, ?Bool.negb_true_iff, ?Bool.negb_false_iff in *;
  repeat match goal with H : _ /\ _ |- _ => destruct H end;
  repeat match goal with H : link_eq _ _ = true |- _ => apply link_eq_spec in H; subst end;
  repeat match goal with H : (kcalls _ =? 0)%nat = true |- _ => apply Nat.eqb_eq in H; unfold kcalls in H; kproj end.
  all: klists; cbn [on_t on_d on_s on_p] in *.
  all: constructor; unfold toks, sd_on, forcing; kproj; klists; intros; subst; rewrite ?in_app_iff; cbn [In].
  all: try congruence; try lia; try assumption; auto.
  all: try (pose proof (J1 ltac:(auto))); try (pose proof (J2 ltac:(auto))); try (pose proof (J3 ltac:(auto) ltac:(auto))); try congruence; try tauto; auto using stop_s_off.
  all: try (destruct (I3 eq_refl eq_refl); congruence).
  all: try (match goal with H : _ = _ \/ _ = _ |- _ => destruct H; congruence end).
  all: try (apply J1; right; apply I2; lia).
  all: try (cbn in *; congruence).
  all: try (destruct J3 as [J|[[J|J]|J]]; auto; congruence).
  all: try (destruct sd; cbn in *; [reflexivity | exfalso; lia ..]).
Qed.
Lemma KS_steps : forall cl max l s s' t, KI cl s -> KS s -> ksteps cl max s l = Some (s', t) -> KS s'.
Proof.
  intros cl max; induction l as [|a l IH]; intros s s' t I J H; cbn in H; [injection H as <- <-; exact J|].
  destruct (kstep cl max s a) as [[s1 t1]|] eqn:E; [|discriminate]. destruct (ksteps cl max s1 l) as [[s2 t2]|] eqn:E2; [|discriminate].
  injection H as <- <-. eapply IH; [eapply KI_step; eassumption | eapply KS_step; eassumption | eassumption].
Qed.
