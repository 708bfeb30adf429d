(** C140: the settings of a socket take effect. *)
From Coq Require Import List Bool Arith Lia.
From Verif Require Import M_Bytes M_Reuse S_Reuse S_Sets P_Reuse.
Import ListNotations.
Open Scope nat_scope.

Record Z (m : zmon) (o : obj) : Prop := {
  zz_sets : o_sets o = mk_sets (z_sbuf m) (z_rbuf m) (z_intv m) (z_pack m);
  zz_pend : z_pend m = o_sendb o;
  zz_rest : z_rest m = o_unp o;
  zz_got : z_got m = o_recvb o;
  zz_again : z_again m = o_disp o;
  zz_read : o_read o = true -> z_may m = true;
  zz_look : size (z_got m) < z_rbuf m -> z_may m = true;
  zz_right : z_right m
}.
Lemma zframe i m e : ev_id e <> i -> zstep i m e = m.
Proof. intros H. unfold zstep. apply Nat.eqb_neq in H. rewrite H. reflexivity. Qed.
Ltac pz := cbn [z_sbuf z_rbuf z_intv z_pack z_pend z_rest z_got z_again z_may z_right z_look z_move z_sets z_event].
Ltac mayl := let L := fresh in intros L; apply Nat.ltb_lt in L; rewrite L; apply orb_true_r.
Lemma Z_kick m o : Z m o -> Z (fold_left (zstep (o_id o)) (snd (kick o)) m) (fst (kick o)).
Proof.
  intros H. unfold kick. destruct (o_up o && negb (o_sending o) && negb (length (o_sendb o) =? 0)) eqn:E; [|exact H].
  destruct H as [A1 A2 A3 A4 A5 A6 A7 A8]. cbn [fst snd fold_left]. unfold zstep. cbn [ev_id]. rewrite Nat.eqb_refl.
  constructor; pz; pj; try assumption.
  - rewrite A2. apply skipn_all.
  - intros R. rewrite (A6 R). reflexivity.
  - mayl.
  - split; [exact A8|]. rewrite A2. apply firstn_all.
Qed.
Lemma Z_up m o : Z m o -> Z (fold_left (zstep (o_id o)) (snd (goes_up o)) m) (fst (goes_up o)).
Proof.
  intros H. unfold goes_up. set (o1 := with_life o _ _ _ _ _ _ _ _ _ _ _ _).
  assert (Z1 : Z (zstep (o_id o) m (EUp (o_id o))) o1).
  { destruct H as [A1 A2 A3 A4 A5 A6 A7 A8]. unfold zstep. cbn [ev_id]. rewrite Nat.eqb_refl. unfold o1. constructor; pz; pj; try assumption; try reflexivity. split; [exact A8|exact I]. }
  assert (K := Z_kick _ o1 Z1). destruct (kick o1) as [o2 e]. exact K.
Qed.
Lemma Z_late m o : Z m o -> Z (fold_left (zstep (o_id o)) (snd (late_up o)) m) (fst (late_up o)).
Proof.
  intros H. unfold late_up. set (o1 := with_life o _ _ _ _ _ _ _ _ _ _ _ _).
  assert (Z1 : Z (zstep (o_id o) m (EUp (o_id o))) o1).
  { destruct H as [A1 A2 A3 A4 A5 A6 A7 A8]. unfold zstep. cbn [ev_id]. rewrite Nat.eqb_refl. unfold o1. constructor; pz; pj; try assumption; try reflexivity. split; [exact A8|exact I]. }
  assert (K := Z_kick _ o1 Z1). destruct (kick o1) as [o2 e]. exact K.
Qed.
Lemma Z_start c m o : Z m o -> Z (fold_left (zstep (o_id o)) (snd (start c o)) m) (fst (start c o)).
Proof.
  assert (SK : forall e, (forall m', z_event m' e = m') -> Z m o -> Z (zstep (o_id o) m e) o).
  { intros e E [A1 A2 A3 A4 A5 A6 A7 A8]. unfold zstep. destruct (_ =? _); [|constructor; assumption]. rewrite E. constructor; pz; try assumption; [intros R; rewrite (A6 R); reflexivity|mayl]. }
  intros H. unfold start. destruct (u_kind c).
  - apply Z_up; assumption.
  - cbn [fst snd fold_left]. assert (K := SK (EConnect (o_id o) (a_local (o_adrs o)) (a_server (o_adrs o))) (fun _ => eq_refl) H). destruct K; constructor; assumption.
  - assert (K := SK (EBind (o_id o) (a_local (o_adrs o)) (if a_cmode (o_adrs o) then Some (a_peer (o_adrs o)) else None)) (fun _ => eq_refl) H).
    assert (U := Z_up _ o K). destruct (goes_up o) as [o1 e]. exact U.
Qed.
Lemma Z_set m o x : Z m o -> Z (zstep (o_id o) m (ESet (o_id o) x)) (with_sets o (set_sets x (o_sets o)) (set_adrs x (o_adrs o))).
Proof.
  intros [A1 A2 A3 A4 A5 A6 A7 A8]. unfold zstep. cbn [ev_id]. rewrite Nat.eqb_refl. rewrite A1. pz.
  destruct x as [n|n|n|p| | | |]; cbn [z_set set_sets s_sbuf s_rbuf s_intv s_pack]; try destruct (0 <? n); constructor; pz; pj; try assumption; try reflexivity; try mayl; intros R; rewrite (A6 R); reflexivity.
Qed.
Lemma Z_step c m o a o' e : ostep c o a = Some (o', e) -> J o -> Z m o -> Z (fold_left (zstep (o_id o)) e m) o'.
Proof.
  intros H JO ZO. assert (Z0 := ZO). destruct ZO as [A1 A2 A3 A4 A5 A6 A7 A8]. assert (RF := Nat.eqb_refl (o_id o)).
  destruct a as [q|ok|d| | |ok| |ok|rr| |xs| |]; cbn [ostep] in H.
  - destruct (o_in o || o_held o); [|discriminate H]. rewrite A1 in H. cbn [s_sbuf s_pack] in H. destruct (_ <? _) eqn:LT.
    + set (o1 := with_out o _ _ _ _) in H. assert (K := Z_kick (zstep (o_id o) m (EQueued (o_id o) q)) o1).
      destruct (kick o1) as [o2 e2]. injection H as <- <-. cbn [fold_left]. apply K.
      unfold zstep. cbn [ev_id]. rewrite RF. unfold o1. constructor; pz; pj; try assumption; try mayl; [rewrite A2; reflexivity|intros R; rewrite (A6 R); reflexivity|].
      split; [exact A8|]. rewrite A2. apply Nat.ltb_lt. exact LT.
    + injection H as <- <-. cbn [fold_left]. unfold zstep. cbn [ev_id]. rewrite RF. constructor; pz; try assumption; try mayl; [intros R; rewrite (A6 R); reflexivity|].
      split; [exact A8|]. rewrite A2. apply Nat.ltb_ge. exact LT.
  - destruct (0 <? length (o_flight o)); [|discriminate H].
    assert (W : forall b, Z (zstep (o_id o) m (EWritten (o_id o) b)) o).
    { intros b. unfold zstep. cbn [ev_id]. rewrite RF. constructor; pz; try assumption; try mayl. intros R; rewrite (A6 R); reflexivity. }
    destruct ok; [destruct (0 <? length (o_sendb o)) eqn:L|]; injection H as <- <-; cbn [fold_left].
    + specialize (W true). revert W. generalize (zstep (o_id o) m (EWritten (o_id o) true)). intros m1 [B1 B2 B3 B4 B5 B6 B7 B8]. unfold zstep. cbn [ev_id]. rewrite RF.
      constructor; pz; pj; try assumption; try mayl; [rewrite B2; apply skipn_all|intros R; rewrite (B6 R); reflexivity|split; [exact B8|rewrite B2; apply firstn_all]].
    + destruct (W true) as [B1 B2 B3 B4 B5 B6 B7 B8]. constructor; pj; try assumption. rewrite B2. apply Nat.ltb_ge in L. destruct (o_sendb o) as [|x l]; [reflexivity|cbn in L; lia].
    + destruct (W false) as [B1 B2 B3 B4 B5 B6 B7 B8]. constructor; pj; assumption.
  - destruct (o_read o) eqn:RD; [|discriminate H]. destruct (cut (o_unp o) d) as [ms r] eqn:CT. injection H as <- <-. rewrite (j_temp _ JO). cbn [app].
    cbn [fold_left]. unfold zstep. cbn [ev_id]. rewrite RF. cbn [z_event]. rewrite A3, CT.
    destruct (_ && _); constructor; pz; pj; try assumption; try reflexivity; try (rewrite A4; reflexivity); try (rewrite A1; cbn [s_rbuf]; rewrite A4; intros R; exact R);
      try (split; [exact A8|exact (A6 eq_refl)]); intros LT; apply Nat.ltb_lt in LT; exact LT.
  - destruct (o_read o); [|discriminate H]. injection H as <- <-. cbn [fold_left]. destruct (o_started o); constructor; pj; try assumption; discriminate.
  - destruct (o_paused o && _) eqn:E; [|discriminate H]. apply andb_true_iff in E as (_ & E). injection H as <- <-. cbn [fold_left]. constructor; pj; try assumption.
    intros _. apply A7. rewrite A4. apply Nat.ltb_lt in E. rewrite A1 in E. exact E.
  - destruct (o_posted o); [discriminate H|].
    assert (HD : forall x b l, (if o_disp o then o_recvb o else tl (o_recvb o)) = l -> forall h p t, Z (zstep (o_id o) m (EHandle (o_id o) x b)) (with_disp o l (negb b) h p t)).
    { intros x b l E h p t. unfold zstep. cbn [ev_id]. rewrite RF. constructor; pz; pj; try assumption; try mayl; try reflexivity; [rewrite A5, A4; exact E|intros R; rewrite (A6 R); reflexivity|split; [exact A8|exact I]]. }
    assert (WT : forall m1 o1, Z m1 o1 -> Z (zstep (o_id o) m1 (EWait (o_id o) (s_intv (o_sets o1)))) o1).
    { intros m1 o1 [B1 B2 B3 B4 B5 B6 B7 B8]. unfold zstep. cbn [ev_id]. rewrite RF. constructor; pz; try assumption; try mayl; [intros R; rewrite (B6 R); reflexivity|split; [exact B8|rewrite B1; reflexivity]]. }
    destruct (o_disp o) eqn:D.
    + destruct ok; injection H as <- <-; cbn [fold_left]; [apply (HD _ true); reflexivity|].
      match goal with |- Z _ ?o1 => apply (WT _ o1) end. apply (HD _ false). reflexivity.
    + destruct (o_recvb o) as [|x l] eqn:RB.
      * injection H as <- <-. cbn [fold_left]. constructor; pj; assumption.
      * destruct ok; injection H as <- <-; cbn [fold_left]; [apply (HD _ true); reflexivity|].
        match goal with |- Z _ ?o1 => apply (WT _ o1) end. apply (HD _ false). reflexivity.
  - destruct (o_timer o); [|discriminate H]. injection H as <- <-. constructor; assumption.
  - destruct (o_conn o); [|discriminate H]. destruct (o_started o); [destruct ok|].
    + injection H as H. assert (U := Z_up m o Z0). rewrite H in U. exact U.
    + destruct (o_need o); injection H as <- <-; cbn [fold_left]; [|constructor; assumption]. unfold zstep; cbn [ev_id]; rewrite RF. constructor; pz; try assumption; try mayl. intros R; rewrite (A6 R); reflexivity.
    + destruct ok; [injection H as H; assert (U := Z_late m o Z0); rewrite H in U; exact U|]. injection H as <- <-. constructor; assumption.
  - destruct (_ && _); [|discriminate H]. injection H as <- <-. constructor; assumption.
  - destruct (o_closing o && _ && _ && _ && _); [|discriminate H].
    set (o1 := with_life o _ _ _ _ _ _ _ _ _ _ _ _) in *.
    assert (M1 : Z (zstep (o_id o) m (EDown (o_id o))) o1).
    { unfold zstep. cbn [ev_id]. rewrite RF. unfold o1. constructor; pz; pj; try assumption; try reflexivity; try discriminate; [|split; [exact A8|exact I]]. intros LT; apply Nat.ltb_lt in LT; exact LT. }
    destruct (o_need o); [|injection H as <- <-; exact M1].
    assert (U := Z_start c _ _ M1). destruct (start c o1) as [o2 e2]. injection H as <- <-. exact U.
  - destruct (_ || _); [|discriminate H]. injection H as <- <-. cbn [fold_left]. apply Z_set. exact Z0.
  - destruct (_ || _); [|discriminate H]. injection H as <- <-. cbn [fold_left]. unfold zstep; cbn [ev_id]; rewrite RF. constructor; pz; try assumption; try mayl. intros R; rewrite (A6 R); reflexivity.
  - destruct (o_held o); [|discriminate H]. injection H as <- <-. constructor; assumption.
Qed.

(** ** the property *)
Definition C140_statement : Prop := forall c l s t i, urun c u0 l = Some (s, t) -> as_set c i t.
(** settings that the object pool does not take back *)
Definition untuned (a : uact) : bool := match a with UObj _ (OSet (SSend _ | SRecv _ | SIntv _ | SPack _)) => false | _ => true end.
Definition good140 (c : ucfg) (a : uact) : bool := negb (u_reuse c) || untuned a.
Definition P140 (c : ucfg) (o : obj) : Prop := J o /\ (u_reuse c = true -> o_sets o = def_sets c).
Lemma born140 c o i : born c (P140 c) o i -> born c J o i /\ o_sets o = def_sets c.
Proof.
  intros [->|(U & o0 & (JO & SO) & RU & ->)]; [split; [left; reflexivity|reflexivity]|]. split; [right; split; [exact U|]; exists o0; auto|]. exact (SO U).
Qed.
(** Without reuse of objects, and with it if these setters are not called; missing: the remaining case, where it is false. *)
Theorem C140_partial c l s t i : urun c u0 l = Some (s, t) -> u_reuse c = false \/ forallb untuned l = true -> as_set c i t.
Proof.
  intros H G. refine (v_ok _ _ _ _ _ _ _ _ (Inv_all c (good140 c) (P140 c) zmon zstep (z_init c) Z z_right _ _ _ _ _ _ _ l s t H _) i).
  - exact zframe.
  - intros o j f _ B _. destruct (born140 _ _ _ B) as (BJ & SO). split; [exact (J_add _ _ _ _ BJ)|]. intros _. destruct (start_sets c (made c f o)) as [E _]. rewrite E. exact SO.
  - intros j o a o' e OS G1 (JO & SO). split; [exact (J_step _ _ _ _ _ OS JO)|]. intros U. unfold good140 in G1. rewrite U in G1. cbn [negb orb] in G1. specialize (SO U).
    destruct (step_sets _ _ _ _ _ OS) as [E _]. rewrite E, SO. destruct a as [q|ok|d| | |ok| |ok|rr| |xs| |]; try reflexivity. destruct xs; try reflexivity; discriminate G1.
  - intros o j f _ B _. destruct (born140 _ _ _ B) as (BJ & SO). cbn [fold_left]. assert (ID : o_id (made c f o) = j). { destruct B as [->|(_ & o0 & _ & _ & ->)]; reflexivity. }
    rewrite <- ID at 1. apply Z_start.
    assert (E : o = with_sets (fresh c j) (o_sets o) (o_adrs o)). { destruct BJ as [->|(_ & o0 & JO & RU & ->)]; [reflexivity|]. rewrite reset_fresh by assumption. reflexivity. }
    unfold zstep. cbn [ev_id]. rewrite Nat.eqb_refl. rewrite E. constructor; pz; try reflexivity; try discriminate; try exact SO; try exact I. mayl.
  - intros j m o a o' e OS _ (JO & _) MO. exact (Z_step _ _ _ _ _ _ OS JO MO).
  - intros m o [A1 A2 A3 A4 A5 A6 A7 A8]. exact A8.
  - exact I.
  - apply forallb_forall. intros a IN. unfold good140. destruct G as [->|G]; [reflexivity|]. rewrite forallb_forall in G. rewrite (G a IN). apply orb_true_r.
Qed.
Print Assumptions C140_partial.
Definition ex_one : ucfg := mk_u KServer false (mk_ep 1 80) true false 3 3 5.
(** limits are lowered and raised, the packer and the interval are changed while the socket works *)
Definition ex_tune : list uact := [UAdd 0 FNone; UObj 1 (OSend [b1]); UObj 1 (OSend [b1; b1]); UObj 1 (OSet (SPack 7)); UObj 1 (OSend [b2; b2]); UObj 1 (OSend [b2]); UObj 1 (OSet (SSend 9)); UObj 1 (OSend [b2]);
  UObj 1 (OWritten true); UObj 1 (OSet (SRecv 2)); UObj 1 (ORecv [b1; b2; b0]); UObj 1 (OSet (SIntv 8)); UObj 1 (ODispatch false); UObj 1 OResume; UObj 1 (ORecv [b1; b1; b0]);
  UObj 1 (OSet (SRecv 4)); UObj 1 OResume; UObj 1 (ORecv [b1])].
Example C140_example : u_reuse ex_one = false /\ exists s t, urun ex_one u0 ex_tune = Some (s, t) /\
  t = [EAdd 1 FNone; EUp 1; EQueued 1 [b1]; EWrite 1 [(0, [b1])]; EQueued 1 [b1; b1]; ESet 1 (SPack 7); EQueued 1 [b2; b2]; ERefused 1 [b2]; ESet 1 (SSend 9); EQueued 1 [b2];
       EWritten 1 true; EWrite 1 [(0, [b1; b1]); (7, [b2; b2]); (7, [b2])]; ESet 1 (SRecv 2); EIn 1 [b1; b2; b0]; ESet 1 (SIntv 8); EHandle 1 [b1; b2] false; EWait 1 8; EIn 1 [b1; b1; b0];
       ESet 1 (SRecv 4); EIn 1 [b1]].
Proof. split; [reflexivity|]. do 2 eexists. split; vm_compute; reflexivity. Qed.
(** With reuse of objects a socket starts with the settings that were made on another socket: here nobody ever set a packer on socket 2. *)
Theorem C140_refuted : exists c l s t, urun c u0 l = Some (s, t) /\ (forall x, ~ In (ESet 2 x) t) /\ In (EWrite 2 [(7, [b2])]) t /\ ~ as_set c 2 t.
Proof.
  exists ex_cfg, ([UAdd 0 FNone; UObj 1 (OSet (SPack 7)); UObj 1 OReadErr; UObj 1 OClosed; UObj 1 ORelease] ++ [UAdd 0 FNone; UObj 2 (OSend [b2])]).
  do 2 eexists. split; [vm_compute; reflexivity|]. split; [intros x IN; cbn in IN; intuition discriminate|]. split; [cbn; intuition|].
  unfold as_set. cbn. intros H. destruct H as (_ & H). discriminate H.
Qed.
Print Assumptions C140_refuted.
Theorem C140_statement_refuted : ~ C140_statement.
Proof. intros S. destruct C140_refuted as (c & l & s & t & H & _ & _ & N). exact (N (S c l s t 2 H)). Qed.
Print Assumptions C140_statement_refuted.
