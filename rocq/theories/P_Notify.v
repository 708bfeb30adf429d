(** C135: every message that was sent is notified, once, in order. C136: on_all_msg_send is called when all was sent, and only then. *)
From Coq Require Import List NArith Bool Arith Lia Permutation.
From Verif Require Import M_Bytes M_Queue M_Send S_Send M_Notify S_Notify.
From Verif Require L_Send P_Wire.
Import ListNotations.
Open Scope nat_scope.

(** ** traces *)
Lemma nlab_app a b : nlab (a ++ b) = nlab a ++ nlab b.
Proof. induction a as [|[] a IH]; cbn [nlab app]; congruence. Qed.
Lemma went_app a b : went (a ++ b) = went a ++ went b.
Proof. induction a as [|[] a IH]; cbn [went app]; try rewrite IH, app_assoc; congruence. Qed.
Lemma broke_app a b : broke (a ++ b) = broke a ++ broke b.
Proof. induction a as [|[] a IH]; cbn [broke app]; try rewrite IH, app_assoc; congruence. Qed.
Lemma told_app a b : told (a ++ b) = told a ++ told b.
Proof. induction a as [|[] a IH]; cbn [told app]; try rewrite IH, <- ?app_assoc; auto; rewrite IH; reflexivity. Qed.
Lemma told_broken_app a b : told_broken (a ++ b) = told_broken a ++ told_broken b.
Proof. induction a as [|[] a IH]; cbn [told_broken app]; try rewrite IH, <- ?app_assoc; auto; rewrite IH; reflexivity. Qed.
Lemma handed_started tr : handed tr = concat (started tr).
Proof. induction tr as [|[] tr IH]; cbn [handed started concat]; congruence. Qed.
Lemma finished_parts tr : Permutation (concat (finished tr)) (went tr ++ broke tr).
Proof.
  induction tr as [|[] tr IH]; cbn [finished went broke concat]; auto.
  - rewrite IH, app_assoc. reflexivity.
  - rewrite IH, !app_assoc. apply Permutation_app_tail. apply Permutation_app_comm.
Qed.
Lemma owed_app a b : owed (a ++ b) = fold_left (fun b e => match e with NL (LOk _) => true | NL (LErr _) | NAll _ => false | _ => b end) b (owed a).
Proof. unfold owed. apply fold_left_app. Qed.
Lemma latest_snoc a l : latest (a ++ [l]) = match l with LOk w => last (map Some w) None | _ => latest a end.
Proof. unfold latest. rewrite fold_left_app. reflexivity. Qed.

(** ** steps of M_Send *)
Definition done (a : action) : bool := match a with AComplete _ _ => true | _ => false end.
Definition plain (l : label) : bool := match l with LOk _ | LErr _ => false | _ => true end.
Ltac acases a := destruct a as [i it p ovf|i| | | |it p ovf| |k ok|i|].
(** in a callback *)
Definition cb (x : frame) (s : sstate) : Prop := exists g, strand s = push g [FUser; x] /\ match g with Some f => L_Send.ssender f | None => True end.
Lemma cb_act c s a s1 l tr x : x = FSent \/ x = FErr -> L_Send.inv tr s -> cb x s -> done a = false -> a <> AUserRet -> act c s a = Some (s1, l) -> cb x s1 /\ plain l = true.
Proof.
  intros HX IV (g & ES & HG) D NR E. pose proof (L_Send.i_shape _ _ IV) as IS. acases a; try discriminate D; try congruence; cbn [act] in E.
  - destruct (nth_error _ _) as [[]|]; try discriminate. injection E as <- <-. split; [exists g; split; [exact ES|exact HG]|reflexivity].
  - destruct (nth_error (threads s) i) as [[f|]|] eqn:EN; try discriminate.
    assert (TS : L_Send.tsender f) by (apply (L_Send.i_thr _ _ IV); eapply nth_error_In; exact EN).
    assert (X : strand s1 = strand s /\ plain l = true).
    { destruct f; try contradiction TS; cbn [exec] in E; repeat match type of E with context [if ?b then _ else _] => destruct b end; injection E as <- <-; split; reflexivity. }
    destruct X as (X & P). split; [exists g; rewrite X; auto|exact P].
  - destruct g as [f|]; cbn [push] in ES; rewrite ES in *; [|discriminate].
    assert (NU : f <> FUser) by (intros ->; contradiction HG).
    destruct (L_Send.shape_top _ _ _ _ _ NU IS) as [(_ & _ & U)|[(_ & _ & _ & U & _)|(EF & _ & _ & _)]].
    1,2: destruct U as [U|U]; destruct HX; subst; discriminate.
    L_Send.cases f; try contradiction HG; cbn [exec] in E.
    + destruct (ovf || _); injection E as <- <-; (split; [|reflexivity]); cbn [push]; [exists (Some (FEnq it p))|exists None]; split; try reflexivity; exact I.
    + injection E as <- <-. split; [|reflexivity]. exists (Some FReady). split; [reflexivity|exact I].
    + injection E as <- <-. split; [|reflexivity]. destruct (ready s); [exists (Some FLoad)|exists None]; split; try reflexivity; exact I.
    + rewrite EF in E. injection E as <- <-. split; [|reflexivity]. exists None. split; [reflexivity|exact I].
    + destruct b; [contradiction HG|]. rewrite EF in E. cbn [negb andb] in E. injection E as <- <-. split; [|reflexivity]. exists None. split; [reflexivity|exact I].
  - rewrite ES in E. destruct g; discriminate E.
  - rewrite ES in E. destruct g; discriminate E.
  - rewrite ES in E. destruct g as [f|]; cbn [push] in E; [destruct f; try discriminate E; contradiction HG|]. injection E as <- <-. split; [|reflexivity]. exists (Some (FCheck it p ovf)). split; [reflexivity|exact I].
  - rewrite ES in E. destruct (nth_error _ _) as [[]|]; destruct g; discriminate E.
  - injection E as <- <-. split; [|reflexivity]. exists g. split; [exact ES|exact HG].
Qed.
Lemma plain_act c s a s1 l : done a = false -> act c s a = Some (s1, l) -> plain l = true.
Proof.
  intros D E.
  assert (X : forall here f x y, exec c here s f = (x, y, l) -> plain l = true).
  { intros here f x y. L_Send.cases f; cbn [exec]; repeat match goal with |- context [if ?b then _ else _] => destruct b end; intros H; try (injection H as <- <- <-; reflexivity).
    - destruct (q_out_bytes _ _ _). injection H as <- <- <-. reflexivity.
    - destruct (smsgs s); injection H as <- <- <-; reflexivity. }
  acases a; try discriminate D; cbn [act] in E.
  - destruct (nth_error _ _) as [[]|]; try discriminate. injection E as <- <-. reflexivity.
  - destruct (nth_error _ _) as [[f|]|]; try discriminate. destruct (exec c false s f) as [[? ?] ?] eqn:EX. injection E as <- <-. exact (X _ _ _ _ EX).
  - destruct (strand s) as [|f st]; [discriminate|]. destruct (exec c true s f) as [[? ?] ?] eqn:EX. assert (Y : Some (set_strand s0 (push o st), l0) = Some (s1, l)) by (destruct f; try discriminate E; exact E). injection Y as <- <-. exact (X _ _ _ _ EX).
  - destruct (strand s); [|discriminate]. destruct (posted s); [discriminate|]. injection E as <- <-. reflexivity.
  - destruct (strand s); [|discriminate]. injection E as <- <-. reflexivity.
  - destruct (strand s) as [|[] ?]; try discriminate. injection E as <- <-. reflexivity.
  - destruct (strand s) as [|[] ?]; try discriminate. injection E as <- <-. reflexivity.
  - destruct (nth_error _ _) as [[]|]; try discriminate. destruct (strand s); [|discriminate]. destruct (writes s); [|discriminate]. destruct (posted s); [|discriminate]. injection E as <- <-. reflexivity.
  - injection E as <- <-. reflexivity.
Qed.
(** something is left to send, and the strand is at it *)
Definition at_it (s : sstate) : Prop :=
  sb s <> [] /\ (exists f, In f (strand s) /\ (f = FSent \/ f = FDo true \/ f = FMove)) \/
  In FBuild (strand s) /\ smsgs s <> [] \/ writes s <> [].
Lemma at_it_act c s a s1 l tr : L_Send.inv tr s -> at_it s -> done a = false -> act c s a = Some (s1, l) -> at_it s1.
Proof.
  intros IV A D E. acases a; try discriminate D; cbn [act] in E.
  - destruct (nth_error _ _) as [[]|]; try discriminate. injection E as <- <-. exact A.
  - destruct (nth_error (threads s) i) as [[f|]|] eqn:EN; try discriminate.
    assert (TS : L_Send.tsender f) by (apply (L_Send.i_thr _ _ IV); eapply nth_error_In; exact EN).
    L_Send.cases f; try contradiction TS; cbn [exec] in E; repeat match type of E with context [if ?b then _ else _] => destruct b end; injection E as <- <-; try exact A;
      (destruct A as [(A1 & A2)|A]; [left; split; [intros X; apply app_eq_nil in X; tauto|exact A2]|right; exact A]).
  - destruct (strand s) as [|f st] eqn:ES; [discriminate|]. destruct (exec c true s f) as [[s0 nxt] l0] eqn:EX.
    assert (Y : f <> FUser /\ Some (set_strand s0 (push nxt st), l0) = Some (s1, l)) by (destruct f; try discriminate E; (split; [congruence|exact E])).
    destruct Y as (NU & Y). injection Y as <- <-. clear E. pose proof (L_Send.i_shape _ _ IV) as IS. rewrite ES in IS.
    pose proof (L_Send.shape_top _ _ _ _ _ NU IS) as SH. unfold at_it in *. rewrite ES in A. cbn [In] in A.
    assert (GROW : forall it p, sb s <> [] -> (if (p : bool) then it ++ sb s else sb s ++ it) <> []) by (intros it [|] H X; apply app_eq_nil in X; tauto).
    assert (REST : forall (x : list item) nx, sb s <> [] /\ (exists g, (f = g \/ In g st) /\ (g = FSent \/ g = FDo true \/ g = FMove)) -> f <> FSent -> f <> FDo true -> f <> FMove ->
      (x = [] -> sb s = []) -> x <> [] /\ exists g, In g (push nx st) /\ (g = FSent \/ g = FDo true \/ g = FMove)).
    { intros x nx (A1 & g & A2 & A3) N1 N2 N3 HX. split; [intros X; apply A1, HX, X|]. exists g. split; [|exact A3].
      destruct A2 as [->|A2]; [destruct A3 as [->|[->| ->]]; congruence|]. destruct nx; [right|]; exact A2. }
    assert (BLD : forall nx, (f = FBuild \/ In FBuild st) -> f <> FBuild -> In FBuild (push nx st)).
    { intros nx [->|H] H'; [congruence|]. destruct nx; [right|]; exact H. }
    L_Send.cases f; cbn [exec] in EX; try congruence.
    + destruct (ovf || _); injection EX as <- <- <-; cbn [set_strand sb strand writes smsgs]; (destruct A as [A|[(A1 & A2)|A]]; [left; apply (REST _ _ A); congruence|right; left; split; [apply BLD; [exact A1|congruence]|exact A2]|right; right; exact A]).
    + injection EX as <- <- <-; cbn [set_strand set_sb sb strand writes smsgs]; (destruct A as [A|[(A1 & A2)|A]]; [left; apply (REST _ (Some FReady) A); try congruence; intros X; exfalso; exact (GROW _ _ (proj1 A) X)|right; left; split; [apply (BLD (Some FReady)); [exact A1|congruence]|exact A2]|right; right; exact A]).
    + injection EX as <- <- <-; cbn [set_strand sb strand writes smsgs]; (destruct A as [A|[(A1 & A2)|A]]; [left; apply (REST _ _ A); congruence|right; left; split; [apply BLD; [exact A1|congruence]|exact A2]|right; right; exact A]).
    + destruct (flag s); injection EX as <- <- <-; cbn [set_strand sb strand writes smsgs]; (destruct A as [A|[(A1 & A2)|A]]; [left; apply (REST _ _ A); congruence|right; left; split; [apply BLD; [exact A1|congruence]|exact A2]|right; right; exact A]).
    + destruct (negb b && flag s) eqn:EB; injection EX as <- <- <-; cbn [set_strand set_flag sb strand writes smsgs push In].
      * destruct b; [discriminate EB|]. destruct A as [A|[(A1 & A2)|A]]; [left; apply (REST _ None A); congruence|right; left; split; [apply (BLD None); [exact A1|congruence]|exact A2]|right; right; exact A].
      * destruct A as [(A & _)|[(A1 & A2)|A]]; [left; split; [exact A|exists FMove; split; [left; reflexivity|auto]]|right; left; split; [right; destruct A1 as [A1|A1]; [discriminate A1|exact A1]|exact A2]|right; right; exact A].
    + destruct (q_out_bytes _ _ _) as [out q] eqn:EQ. apply L_Send.out_split in EQ. destruct EQ as (_ & EQ). injection EX as <- <- <-. cbn [set_strand set_smsgs set_sb sb strand writes smsgs push In].
      destruct A as [(A & _)|[(A1 & A2)|A]]; [| |right; right; exact A]; right; left; (split; [left; reflexivity|]); intros X; apply app_eq_nil in X; [apply (EQ A); tauto|tauto].
    + destruct (smsgs s) as [|m ms] eqn:EM; injection EX as <- <- <-; cbn [set_strand set_writes sb strand writes smsgs].
      * destruct A as [A|[(A1 & A2)|A]]; [left; apply (REST _ (Some FClear) A); congruence|congruence|right; right; exact A].
      * right. right. intros X. apply app_eq_nil in X. destruct X as (_ & X). discriminate X.
    + injection EX as <- <- <-; cbn [set_strand set_flag sb strand writes smsgs]; (destruct A as [A|[(A1 & A2)|A]]; [left; apply (REST _ (Some FEmpty) A); congruence|right; left; split; [apply (BLD (Some FEmpty)); [exact A1|congruence]|exact A2]|right; right; exact A]).
    + injection EX as <- <- <-; cbn [set_strand sb strand writes smsgs]; (destruct A as [A|[(A1 & A2)|A]]; [left; apply (REST _ _ A); congruence|right; left; split; [apply BLD; [exact A1|congruence]|exact A2]|right; right; exact A]).
    + injection EX as <- <- <-. cbn [set_strand set_smsgs sb strand writes smsgs push In].
      destruct A as [(A & _)|[(A1 & A2)|A]]; [left; split; [exact A|exists (FDo true); split; [left; reflexivity|auto]]| |right; right; exact A].
      exfalso. destruct A1 as [A1|A1]; [discriminate A1|]. destruct SH as [(_ & [] & _)|[(_ & _ & _ & [->| ->] & _)|(_ & _ & [] & _)]]; cbn in A1; intuition discriminate.
    + injection EX as <- <- <-. cbn [set_strand set_smsgs sb strand writes smsgs push In].
      destruct SH as [(_ & [] & _)|[(_ & EW & _ & UN & _)|(_ & _ & [] & _)]]. exfalso.
      destruct A as [(A & g & A1 & A2)|[(A1 & A2)|A]]; [| |congruence].
      * destruct A1 as [<-|A1]; [destruct A2 as [A2|[A2|A2]]; discriminate A2|]. destruct UN as [->| ->]; cbn in A1; intuition (subst; discriminate).
      * destruct A1 as [A1|A1]; [discriminate A1|]. destruct UN as [->| ->]; cbn in A1; intuition discriminate.
    + injection EX as <- <- <-; cbn [set_strand set_flag sb strand writes smsgs]; (destruct A as [A|[(A1 & A2)|A]]; [left; apply (REST _ None A); congruence|right; left; split; [apply (BLD None); [exact A1|congruence]|exact A2]|right; right; exact A]).
  - destruct (strand s) eqn:ES; [|discriminate]. destruct (posted s); [discriminate|]. injection E as <- <-. destruct A as [(_ & g & A & _)|[(A & _)|A]]; rewrite ?ES in A; try contradiction. right. right. exact A.
  - destruct (strand s) eqn:ES; [|discriminate]. injection E as <- <-. destruct A as [(_ & g & A & _)|[(A & _)|A]]; rewrite ?ES in A; try contradiction. right. right. exact A.
  - destruct (strand s) as [|[] st] eqn:ES; try discriminate. injection E as <- <-. unfold at_it in *. rewrite ES in A. cbn [set_strand sb smsgs strand writes].
    destruct A as [(A1 & g & A2 & A3)|[(A1 & A2)|A]]; [left; split; [exact A1|exists g; split; [right; exact A2|exact A3]]|right; left; split; [right; exact A1|exact A2]|right; right; exact A].
  - destruct (strand s) as [|[] st] eqn:ES; try discriminate. injection E as <- <-. unfold at_it in *. rewrite ES in A. cbn [set_strand sb smsgs strand writes].
    destruct A as [(A1 & g & A2 & A3)|[(A1 & A2)|A]]; [left; split; [exact A1|exists g; split; [|exact A3]]|right; left; split; [|exact A2]|right; right; exact A].
    + destruct A2 as [<-|A2]; [destruct A3 as [A3|[A3|A3]]; discriminate A3|exact A2].
    + destruct A1 as [A1|A1]; [discriminate A1|exact A1].
  - destruct (nth_error _ _) as [[]|]; try discriminate. destruct (strand s) eqn:ES; [|discriminate]. destruct (writes s) eqn:EW; [|discriminate]. destruct A as [(_ & g & A & _)|[(A & _)|A]]; rewrite ?ES in A; try contradiction; congruence.
  - injection E as <- <-. exact A.
Qed.
(** one item per write *)
Lemma one_act c s a s1 l tr : L_Send.inv tr s -> batch_size c = 0%N -> (1 < sc_W c)%N -> length (smsgs s) <= 1 -> act c s a = Some (s1, l) -> length (smsgs s1) <= 1.
Proof.
  intros IV B0 W1 L E. 
  assert (X : forall here f x y z, exec c here s f = (x, y, z) -> (f = FMove -> smsgs s = []) -> length (smsgs x) <= 1).
  { intros here f x y z. L_Send.cases f; cbn [exec]; repeat match goal with |- context [if ?b then _ else _] => destruct b end; intros H NE; try (injection H as <- <- <-; cbn [set_sb set_smsgs set_flag set_posted smsgs length]; lia).
    - rewrite B0 in H. unfold q_out_bytes in H. cbn [qitems] in H. destruct (N.eqb_spec 0 (sc_W c - 1)) as [X|X]; [lia|].
      specialize (NE eq_refl). destruct (sb s) as [|m ms]; cbn [take_bytes] in H.
      + injection H as <- <- <-. cbn. rewrite NE. cbn. lia.
      + cbv zeta in H. destruct (N.leb_spec 0 ((0 + lenN m) mod sc_W c)) as [Y|Y]; [|lia]. injection H as <- <- <-. cbn. rewrite NE. cbn. lia.
    - destruct (smsgs s) as [|m0 ms0] eqn:EM; injection H as <- <- <-; cbn [set_writes smsgs]; rewrite EM; exact L. }
  acases a; cbn [act] in E.
  - destruct (nth_error _ _) as [[]|]; try discriminate. injection E as <- <-. exact L.
  - destruct (nth_error _ _) as [[f|]|] eqn:EN; try discriminate. destruct (exec c false s f) as [[s0 o] l0] eqn:EX. injection E as <- <-. cbn [set_threads smsgs].
    apply (X _ _ _ _ _ EX). intros ->. exfalso. apply (L_Send.i_thr _ _ IV FMove). eapply nth_error_In. exact EN.
  - destruct (strand s) as [|f st] eqn:ES; [discriminate|]. destruct (exec c true s f) as [[s0 nxt] l0] eqn:EX.
    assert (Y : f <> FUser /\ Some (set_strand s0 (push nxt st), l0) = Some (s1, l)) by (destruct f; try discriminate E; (split; [congruence|exact E])).
    destruct Y as (NU & Y). injection Y as <- <-. cbn [set_strand smsgs]. apply (X _ _ _ _ _ EX). intros ->. pose proof (L_Send.i_shape _ _ IV) as IS. rewrite ES in IS.
    destruct (L_Send.shape_top _ _ _ _ _ NU IS) as [(_ & [] & _)|[(_ & _ & _ & _ & [[]|F])|(_ & _ & [] & _)]]. exact F.
  - destruct (strand s); [|discriminate]. destruct (posted s); [discriminate|]. injection E as <- <-. exact L.
  - destruct (strand s); [|discriminate]. injection E as <- <-. exact L.
  - destruct (strand s) as [|[] ?]; try discriminate. injection E as <- <-. exact L.
  - destruct (strand s) as [|[] ?]; try discriminate. injection E as <- <-. exact L.
  - destruct (strand s); [|discriminate]. destruct (nth_error _ _); [|discriminate]. injection E as <- <-. exact L.
  - destruct (nth_error _ _) as [[]|]; try discriminate. destruct (strand s); [|discriminate]. destruct (writes s); [|discriminate]. destruct (posted s); [|discriminate]. injection E as <- <-. exact L.
  - injection E as <- <-. exact L.
Qed.

(** in front of the check of the send buffer: only other threads go on *)
Lemma top_act c s a s1 l x : strand s = [FUser; x] -> done a = false -> a <> AUserRet -> match a with ACallS _ _ _ => False | _ => True end -> act c s a = Some (s1, l) -> strand s1 = strand s.
Proof.
  intros ES D NR NC E. acases a; try discriminate D; try congruence; try contradiction NC; cbn [act] in E; try (rewrite ES in E; discriminate E).
  - destruct (nth_error _ _) as [[]|]; try discriminate. injection E as <- <-. reflexivity.
  - destruct (nth_error _ _) as [[f|]|]; try discriminate.
    L_Send.cases f; cbn [exec] in E; repeat match type of E with context [if ?b then _ else _] => destruct b end; try (destruct (q_out_bytes _ _ _)); try (destruct (smsgs s)); injection E as <- <-; reflexivity.
  - rewrite ES in E. destruct (nth_error _ _) as [[]|]; discriminate E.
  - injection E as <- <-. reflexivity.
Qed.

(** ** invariant *)
Definition good_all (c : ncfg) (t : list nev) : Prop := forall t1 m t2, t = t1 ++ NAll m :: t2 ->
  all_gone (nlab t1) /\ owed t1 = true /\ (nc_msg c || negb (nc_batch c) = true -> m = latest (nlab t1) /\ m <> None).
Lemma good_all_app c t d : good_all c t -> (forall m, ~ In (NAll m) d) -> good_all c (t ++ d).
Proof.
  intros G N t1 m t2 E. apply app_eq_app in E. destruct E as (z & [(E1 & E2)|(E1 & E2)]).
  - destruct z as [|y z]; cbn [app] in E2.
    + exfalso. apply (N m). rewrite <- E2. left. reflexivity.
    + injection E2 as <- E2. exact (G _ _ _ E1).
  - exfalso. apply (N m). rewrite E2. apply in_or_app. right. left. reflexivity.
Qed.
Lemma good_all_snoc c t m : good_all c t -> all_gone (nlab t) -> owed t = true -> (nc_msg c || negb (nc_batch c) = true -> m = latest (nlab t) /\ m <> None) -> good_all c (t ++ [NAll m]).
Proof.
  intros G A B C t1 m' t2 E. destruct t2 as [|e t2] using rev_ind.
  - apply app_inj_tail in E. destruct E as (-> & E). injection E as <-. auto.
  - clear IHt2. change (t1 ++ NAll m' :: t2 ++ [e]) with (t1 ++ (NAll m' :: t2) ++ [e]) in E. rewrite app_assoc in E. apply app_inj_tail in E. destruct E as (E & _). exact (G _ _ _ E).
Qed.

Record G (c : ncfg) (t : list nev) (s : nst) : Prop := {
  g_inv : L_Send.inv (nlab t) (n_s s);
  g_perm : P_Wire.perm (nlab t) (n_s s);
  g_one : nc_msg c = true -> length (smsgs (n_s s)) <= 1;
  g_at : match n_at s with
         | SNone => True
         | SMsg _ => nc_msg c = true /\ cb FSent (n_s s)
         | SBatch _ => nc_msg c = false /\ nc_batch c = true /\ cb FSent (n_s s)
         | SAll => cb FSent (n_s s)
         | SLook _ => strand (n_s s) = [FUser; FSent]
         | SFail => cb FErr (n_s s)
         end;
  g_told : nc_msg c || nc_batch c = true -> told t = went (nlab t);
  g_broken : told_broken t = broke (nlab t);
  g_w : match n_at s with SMsg w | SLook w => nc_msg c || negb (nc_batch c) = true -> last (map Some w) None = latest (nlab t) /\ last (map Some w) None <> None | _ => True end;
  g_owed : match n_at s with
           | SMsg _ | SBatch _ | SLook _ => owed t = true
           | SAll | SFail => owed t = false
           | SNone => nc_all c = true -> owed t = true -> at_it (n_s s)
           end;
  g_all : good_all c t
}.
Lemma last_some (w : list (list byte)) : w <> [] -> last (map Some w) None <> None.
Proof. intros H. destruct w as [|x w] using rev_ind; [congruence|]. rewrite map_app. cbn [map]. rewrite last_last. discriminate. Qed.
Lemma G_init c n : G c [] (n_init n).
Proof.
  constructor; cbn; auto; try discriminate.
  - apply L_Send.inv_init.
  - unfold P_Wire.perm. cbn. constructor.
  - intros t1 m t2 E. destruct t1; discriminate E.
Qed.
(** the handler goes on behind the callbacks *)
Lemma finish_inv c s x d : finish c s = Some (x, d) -> exists st, strand s = FUser :: st /\ x = mk_n (set_strand s st) SNone /\ d = [NL LTau].
Proof.
  unfold finish. cbn [act]. destruct (strand s) as [|[] st]; try discriminate. intros E. injection E as <- <-. exists st. auto.
Qed.
Lemma G_finish c t s x d : G c t s -> finish c (n_s s) = Some (x, d) -> cb FSent (n_s s) \/ cb FErr (n_s s) ->
  (nc_all c = true -> owed t = true -> cb FSent (n_s s) /\ sb (n_s s) <> []) -> G c (t ++ d) x.
Proof.
  intros [GI GP G1 GA GT GB GW GO GL] E C O. pose proof E as E'. apply finish_inv in E'. destruct E' as (st & ES & -> & ->).
  assert (A : act (nc_s c) (n_s s) AUserRet = Some (set_strand (n_s s) st, LTau)) by (cbn [act]; rewrite ES; reflexivity).
  constructor; cbn [n_s n_at]; rewrite ?nlab_app, ?told_app, ?told_broken_app, ?went_app, ?broke_app; cbn [nlab told told_broken went broke]; rewrite ?app_nil_r; auto.
  - exact (L_Send.act_inv _ _ _ _ _ _ GI A).
  - exact (P_Wire.perm_act _ _ _ _ _ _ GI GP A).
  - intros NA. rewrite owed_app. cbn [fold_left]. intros OT. destruct (O NA OT) as ((g & X & HG) & NE). left. split; [exact NE|]. exists FSent. cbn [set_strand strand].
    rewrite X in ES. destruct g as [f|]; cbn [push] in ES; [injection ES as -> _; contradiction HG|]. injection ES as <-. split; [left; reflexivity|auto].
  - apply good_all_app; [exact GL|]. intros m [H|[]]. discriminate H.
Qed.
Lemma G_look c t s w x d : G c t s -> on_top (n_s s) = true -> cb FSent (n_s s) -> owed t = true -> (nc_msg c || negb (nc_batch c) = true -> last (map Some w) None = latest (nlab t) /\ last (map Some w) None <> None) ->
  look c (n_s s) w = Some (x, d) -> G c (t ++ d) x.
Proof.
  intros GG T C O HW E. unfold look in E. destruct (nc_all c) eqn:NA.
  - injection E as <- <-. rewrite app_nil_r. destruct GG as [GI GP G1 GA GT GB GW GO GL]. constructor; cbn [n_s n_at]; auto.
    destruct C as (g & ES & HG). unfold on_top in T. rewrite ES in *. destruct g as [f|]; cbn [push] in *; [destruct f; try discriminate T; contradiction HG|reflexivity].
  - apply (G_finish _ _ _ _ _ GG E); [auto|congruence].
Qed.
Lemma G_step c t s a s1 d : nc_ok c -> G c t s -> nstep c s a = Some (s1, d) -> G c (t ++ d) s1.
Proof.
  intros (W1 & OK) GG E. pose proof GG as [GI GP G1 GA GT GB GW GO GL].
  destruct a as [a|ok|rest|]; cbn [nstep] in E.
  - destruct (inner (n_at s) a) eqn:IN; [|discriminate]. destruct (act _ _ a) as [[s' l]|] eqn:EA; [|discriminate]. injection E as <- <-.
    assert (D : done a = false) by (acases a; try reflexivity; discriminate IN).
    assert (P : plain l = true) by (exact (plain_act _ _ _ _ _ D EA)).
    assert (EW : went (nlab t ++ [l]) = went (nlab t)) by (rewrite went_app; destruct l; try discriminate P; cbn [went]; apply app_nil_r).
    assert (EB : broke (nlab t ++ [l]) = broke (nlab t)) by (rewrite broke_app; destruct l; try discriminate P; cbn [broke]; apply app_nil_r).
    assert (EL : latest (nlab t ++ [l]) = latest (nlab t)) by (rewrite latest_snoc; destruct l; try discriminate P; reflexivity).
    assert (EO : owed (t ++ [NL l]) = owed t) by (rewrite owed_app; destruct l; try discriminate P; reflexivity).
    assert (NR : n_at s <> SNone -> a <> AUserRet) by (intros H ->; cbn [inner] in IN; destruct (n_at s); try discriminate IN; congruence).
    constructor; cbn [n_s n_at]; rewrite ?nlab_app, ?told_app, ?told_broken_app; cbn [nlab told told_broken]; rewrite ?app_nil_r, ?EW, ?EB, ?EL, ?EO; auto.
    + exact (L_Send.act_inv _ _ _ _ _ _ GI EA).
    + exact (P_Wire.perm_act _ _ _ _ _ _ GI GP EA).
    + intros NM. exact (one_act _ _ _ _ _ _ GI (OK NM) W1 (G1 NM) EA).
    + destruct (n_at s) as [|w|w|w| |] eqn:EN; auto.
      * destruct GA as (GA1 & GA2). split; [exact GA1|]. apply (cb_act _ _ _ _ _ _ FSent (or_introl eq_refl) GI GA2 D (NR ltac:(congruence)) EA).
      * destruct GA as (GA1 & GA2 & GA3). split; [exact GA1|]. split; [exact GA2|]. apply (cb_act _ _ _ _ _ _ FSent (or_introl eq_refl) GI GA3 D (NR ltac:(congruence)) EA).
      * rewrite <- GA. apply (top_act _ _ _ _ _ FSent GA D (NR ltac:(congruence))) with (2 := EA). acases a; try exact I. discriminate IN.
      * apply (cb_act _ _ _ _ _ _ FSent (or_introl eq_refl) GI GA D (NR ltac:(congruence)) EA).
      * apply (cb_act _ _ _ _ _ _ FErr (or_intror eq_refl) GI GA D (NR ltac:(congruence)) EA).
    + destruct (n_at s); auto. intros NA OT. exact (at_it_act _ _ _ _ _ _ GI (GO NA OT) D EA).
    + apply good_all_app; [exact GL|]. intros m [H|[]]. discriminate H.
  - destruct (writes (n_s s)) as [|w ws] eqn:EWR; [discriminate|]. destruct (act _ _ _) as [[s' l]|] eqn:EA; [|discriminate].
    assert (X : strand (n_s s) = [] /\ s' = set_strand (set_writes (n_s s) ws) [FUser; if ok then FSent else FErr] /\ l = if ok then LOk w else LErr w).
    { cbn [act] in EA. rewrite EWR in EA. destruct (strand (n_s s)); [|discriminate]. cbn [nth_error] in EA. injection EA as <- <-. unfold drop_nth. cbn [firstn skipn app]. auto. }
    destruct X as (ES & ES' & EL).
    assert (GI' := L_Send.act_inv _ _ _ _ _ _ GI EA). assert (GP' := P_Wire.perm_act _ _ _ _ _ _ GI GP EA).
    pose proof (L_Send.i_shape _ _ GI) as IS. rewrite ES, EWR in IS. apply L_Send.shape_nil in IS. destruct IS as [(_ & IW & IN)|(_ & IW & _)]; [|discriminate IW]. injection IW as EM ->.
    assert (C : forall x, strand s' = [FUser; x] -> cb x s') by (intros x H; exists None; auto).
    assert (G1' : nc_msg c = true -> length (smsgs s') <= 1) by (intros H; rewrite ES'; cbn; exact (G1 H)).
    assert (EW : went (nlab t ++ [l]) = went (nlab t) ++ (if ok then w else [])) by (rewrite went_app; rewrite EL; destruct ok; cbn [went]; rewrite ?app_nil_r; reflexivity).
    assert (EB : broke (nlab t ++ [l]) = broke (nlab t) ++ (if ok then [] else w)) by (rewrite broke_app; rewrite EL; destruct ok; cbn [broke]; rewrite ?app_nil_r; reflexivity).
    destruct ok; cbn [negb] in E; subst l.
    + assert (ELA : latest (nlab t ++ [LOk w]) = last (map Some w) None) by apply latest_snoc.
      destruct (nc_msg c) eqn:NM.
      * assert (LW : length w <= 1) by (rewrite EM; exact (G1 eq_refl)). destruct w as [|m w]; [congruence|]. assert (w = []) as -> by (destruct w; [reflexivity|cbn in LW; lia]).
        injection E as <- <-. constructor; cbn [n_s n_at]; rewrite ?nlab_app, ?told_app, ?told_broken_app; cbn [nlab told told_broken]; rewrite ?app_nil_r; auto; try congruence.
        -- split; [exact NM|]. apply C. rewrite ES'. reflexivity.
        -- intros _. rewrite EW, GT by reflexivity. reflexivity.
        -- rewrite EB, GB, app_nil_r. reflexivity.
        -- intros _. split; [symmetry; exact ELA|discriminate].
        -- rewrite owed_app. reflexivity.
        -- apply good_all_app; [exact GL|]. intros x [H|[H|[]]]; discriminate H.
      * destruct (nc_batch c) eqn:NB.
        -- injection E as <- <-. constructor; cbn [n_s n_at]; rewrite ?nlab_app, ?told_app, ?told_broken_app; cbn [nlab told told_broken]; rewrite ?app_nil_r; auto; try congruence.
           ++ split; [exact NM|]. split; [exact NB|]. apply C. rewrite ES'. reflexivity.
           ++ intros _. rewrite EW, GT by reflexivity. reflexivity.
           ++ rewrite EB, GB, app_nil_r. reflexivity.
           ++ rewrite owed_app. reflexivity.
           ++ apply good_all_app; [exact GL|]. intros x [H|[H|[]]]; discriminate H.
        -- assert (GX : forall at_, match at_ with SLook w' => w' = w | _ => False end -> G c (t ++ [NL (LOk w)]) (mk_n s' at_)).
           { intros at_ HA. destruct at_; try contradiction HA. subst w0. constructor; cbn [n_s n_at]; rewrite ?nlab_app, ?told_app, ?told_broken_app; cbn [nlab told told_broken]; rewrite ?app_nil_r; auto; try congruence.
             - rewrite ES'. reflexivity.
             - rewrite NM, NB. discriminate.
             - rewrite EB, GB, app_nil_r. reflexivity.
             - intros _. split; [symmetry; exact ELA|]. apply last_some. rewrite EM. exact IN.
             - rewrite owed_app. reflexivity.
             - apply good_all_app; [exact GL|]. intros x [H|[]]; discriminate H. }
           destruct (nc_all c) eqn:NA; [injection E as <- <-; apply GX; reflexivity|].
           destruct (finish c s') as [[x t']|] eqn:EF; [|discriminate]. injection E as <- <-.
           replace (t ++ NL (LOk w) :: t') with ((t ++ [NL (LOk w)]) ++ t') by (rewrite <- app_assoc; reflexivity).
           apply (G_finish c _ (mk_n s' (SLook w)) _ _ (GX (SLook w) eq_refl) EF); cbn [n_s]; [left; apply C; rewrite ES'; reflexivity|congruence].
    + injection E as <- <-. constructor; cbn [n_s n_at]; rewrite ?nlab_app, ?told_app, ?told_broken_app; cbn [nlab told told_broken]; rewrite ?app_nil_r; auto.
      * apply C. rewrite ES'. reflexivity.
      * intros H. rewrite EW, app_nil_r. exact (GT H).
      * rewrite EB, GB. reflexivity.
      * rewrite owed_app. reflexivity.
      * apply good_all_app; [exact GL|]. intros x [H|[H|[]]]; discriminate H.
  - destruct (on_top (n_s s)) eqn:T; [|discriminate]. destruct (n_at s) as [|w|w|w| |] eqn:EN; try discriminate.
    + apply (G_look _ _ _ _ _ _ GG T (proj2 GA) GO GW E).
    + destruct GA as (GA1 & GA2 & GA3). apply (G_look _ _ _ _ _ _ GG T GA3 GO) with (2 := E). rewrite GA1, GA2. discriminate.
    + apply (G_finish _ _ _ _ _ GG E); [auto|congruence].
    + apply (G_finish _ _ _ _ _ GG E); [auto|congruence].
  - destruct (n_at s) as [|w|w|w| |] eqn:EN; try discriminate.
    assert (C : cb FSent (n_s s)) by (exists None; auto).
    destruct (sb (n_s s)) as [|b bs] eqn:ESB.
    + injection E as <- <-.
      assert (AG : all_gone (nlab t)).
      { unfold all_gone. unfold P_Wire.perm, L_Send.mid in GP. rewrite GA, ESB in GP. cbn [app] in GP. rewrite app_nil_r in GP. rewrite <- GP, handed_started, (L_Send.i_writes _ _ GI).
        pose proof (L_Send.i_shape _ _ GI) as IS. rewrite GA in IS. apply L_Send.shape_user in IS. destruct IS as [(_ & IS)|(_ & IS & _)]; [discriminate IS|]. rewrite IS, app_nil_r. apply finished_parts. }
      constructor; cbn [n_s n_at]; rewrite ?nlab_app, ?told_app, ?told_broken_app; cbn [nlab told told_broken]; rewrite ?app_nil_r; auto.
      * rewrite owed_app. reflexivity.
      * apply good_all_snoc; auto.
    + apply (G_finish _ _ _ _ _ GG E); [auto|]. intros _ _. split; [exact C|congruence].
Qed.
Lemma G_run c l : nc_ok c -> forall t s s1 d, G c t s -> nrun c s l = Some (s1, d) -> G c (t ++ d) s1.
Proof.
  intros OK. induction l as [|a l IH]; intros t s s1 d HG E; cbn [nrun] in E.
  - injection E as <- <-. rewrite app_nil_r. exact HG.
  - destruct (nstep c s a) as [[s2 d1]|] eqn:ES; [|discriminate]. destruct (nrun c s2 l) as [[s3 d2]|] eqn:ER; [|discriminate]. injection E as <- <-.
    rewrite app_assoc. exact (IH _ _ _ _ (G_step _ _ _ _ _ _ OK HG ES) ER).
Qed.
Lemma G_reach c n l s t : nc_ok c -> nrun c (n_init n) l = Some (s, t) -> G c t s.
Proof. intros OK E. exact (G_run c l OK [] _ _ _ (G_init c n) E). Qed.

(** ** C135 *)
(** after every message sent on_msg_send is called with that message (include/config.h:1112): what it is called with is what was sent *)
Definition C135_statement : Prop := forall c n l s t m, nc_ok c -> nc_msg c = true -> nrun c (n_init n) l = Some (s, t) -> In m (told t) -> In m (frames (nlab t)).
Definition cfg135 (msg batch all : bool) : ncfg := mk_nc (mk_sc 1000 (if msg then 0 else 65536) (2 ^ 64)%N) msg batch all.
(** a thread establishes the link, then sends: a message packed into header and body *)
Definition up135 : list nact := map NDo [AUp 0; AThread 0; AThread 0; ATask; AStrand; AStrand; AStrand; AStrand; AStrand].
Definition send135 (it : list (list byte)) : list nact := map NDo [ACall 0 it false false; AThread 0; AThread 0; AThread 0; AThread 0; ATask; AStrand; AStrand; AStrand].
Definition next135 : list nact := map NDo [AStrand; AStrand; AStrand; AStrand].
Definition run135 : list nact := up135 ++ send135 [[Byte.x01; Byte.x03]; [Byte.x09]] ++ [NDone true; NRet []; NLook] ++ next135 ++ [NDone true; NRet []; NLook; NRet []] ++ next135 ++ map NDo [AStrand; AStrand].
Theorem C135_split_refuted : exists c n l s t m, nc_ok c /\ nc_msg c = true /\ nrun c (n_init n) l = Some (s, t) /\ In m (told t) /\ ~ In m (frames (nlab t)).
Proof.
  exists (cfg135 true false true), 1, run135. do 2 eexists. exists [Byte.x09]. split; [split; [reflexivity|intros _; reflexivity]|]. split; [reflexivity|]. split; [vm_compute; reflexivity|]. vm_compute.
  split; [auto|]. intros [H|[]]. discriminate H.
Qed.
Theorem C135_statement_refuted : ~ C135_statement.
Proof. intros H. destruct C135_split_refuted as (c & n & l & s & t & m & A & B & C & D & E). exact (E (H c n l s t m A B C D)). Qed.
Print Assumptions C135_split_refuted.
Print Assumptions C135_statement_refuted.

(** each item of the send buffer whose write succeeded is told exactly once, in that order, when its write completed; those of writes that failed are given to on_send_error, likewise *)
Theorem C135_partial : forall c n l s t, nc_ok c -> nrun c (n_init n) l = Some (s, t) ->
  (nc_msg c || nc_batch c = true -> told t = went (nlab t)) /\ told_broken t = broke (nlab t).
Proof. intros c n l s t OK E. apply (G_reach _ _ _ _ _ OK) in E. split; [exact (g_told _ _ _ E)|exact (g_broken _ _ _ E)]. Qed.
Example C135_partial_ex : exists s t, nc_ok (cfg135 true false true) /\ nrun (cfg135 true false true) (n_init 1) (run135 ++ send135 [[Byte.x07]; [Byte.x08]] ++ [NDone false]) = Some (s, t) /\
  told t = [[Byte.x01; Byte.x03]; [Byte.x09]] /\ told_broken t = [[Byte.x07]].
Proof. do 2 eexists. split; [split; [reflexivity|intros _; reflexivity]|]. split; [vm_compute; reflexivity|]. vm_compute. split; reflexivity. Qed.
Example C135_partial_ex_batch : exists s t, nc_ok (cfg135 false true true) /\
  nrun (cfg135 false true true) (n_init 1) (up135 ++ send135 [[Byte.x07]; [Byte.x08]] ++ [NDone true; NDo (ACallS [[Byte.x05]] false false); NDo AStrand; NDo AStrand; NDo AStrand; NDo AStrand; NRet []; NLook] ++ next135 ++ [NDone true; NRet []; NLook]) = Some (s, t) /\
  told t = [[Byte.x07]; [Byte.x08]; [Byte.x05]] /\ owed t = false /\ n_at s = SAll.
Proof. do 2 eexists. split; [split; [reflexivity|intros H; discriminate H]|]. split; [vm_compute; reflexivity|]. vm_compute. repeat split. Qed.
Print Assumptions C135_partial.

Lemma frames_single tr : single_items tr -> frames tr = queued tr.
Proof.
  induction tr as [|[] tr IH]; cbn [single_items frames queued]; auto. intros (H & S). destruct it as [|x [|]]; try discriminate H. cbn. rewrite app_nil_r, IH by exact S. reflexivity.
Qed.
(** where every send call puts one item into the send buffer, the messages told are those sent, in their order; what is missing is on its way *)
Theorem C135_whole_messages_partial : forall c n l s t, nc_ok c -> nc_msg c || nc_batch c = true -> nrun c (n_init n) l = Some (s, t) -> single_items (nlab t) ->
  Permutation (frames (nlab t)) (told t ++ told_broken t ++ concat (writes (n_s s)) ++ L_Send.mid (n_s s) ++ sb (n_s s)) /\
  (no_prior (nlab t) -> told_broken t = [] -> exists rest, frames (nlab t) = told t ++ rest).
Proof.
  intros c n l s t OK NB E SI. apply (G_reach _ _ _ _ _ OK) in E. destruct E as [GI GP _ _ GT GB _ _ _]. rewrite (frames_single _ SI).
  assert (H : handed (nlab t) = concat (finished (nlab t)) ++ concat (writes (n_s s))) by (rewrite handed_started, (L_Send.i_writes _ _ GI); apply concat_app).
  split.
  - unfold P_Wire.perm in GP. rewrite <- GP, H, (GT NB), GB, finished_parts, <- !app_assoc. reflexivity.
  - intros NP B. exists (concat (writes (n_s s)) ++ L_Send.mid (n_s s) ++ sb (n_s s)). rewrite <- (L_Send.i_order _ _ GI NP), H, (GT NB), <- app_assoc. f_equal.
    rewrite GB in B. revert B. generalize (nlab t). intros tr. induction tr as [|[] tr IH]; cbn [broke finished went concat]; auto.
    + intros B. rewrite IH by exact B. reflexivity.
    + intros B. apply app_eq_nil in B. destruct B as (-> & B). exact (IH B).
Qed.
Example C135_whole_messages_partial_ex : exists s t, nc_ok (cfg135 true false true) /\ nrun (cfg135 true false true) (n_init 1) (up135 ++ send135 [[Byte.x07]] ++ [NDone true; NRet []; NLook; NDo (ACallS [[Byte.x08]] false false)] ++ next135) = Some (s, t) /\
  single_items (nlab t) /\ no_prior (nlab t) /\ told_broken t = [] /\ told t = [[Byte.x07]] /\ frames (nlab t) = [[Byte.x07]; [Byte.x08]].
Proof. do 2 eexists. split; [split; [reflexivity|intros _; reflexivity]|]. split; [vm_compute; reflexivity|]. vm_compute. repeat split. Qed.
Print Assumptions C135_whole_messages_partial.

(** ** C136 *)
(** on_all_msg_send is called only when everything put into the send buffer so far was sent (or its write failed), and only when a write succeeded since it was called last *)
Theorem C136_all_gone_when_told : forall c n l s t1 m t2, nc_ok c -> nrun c (n_init n) l = Some (s, t1 ++ NAll m :: t2) ->
  all_gone (nlab t1) /\ owed t1 = true.
Proof. intros c n l s t1 m t2 OK E. apply (G_reach _ _ _ _ _ OK) in E. destruct (g_all _ _ _ E t1 m t2 eq_refl) as (A & B & _). auto. Qed.
(** it gets the message that was sent last, unless on_msg_send(msg_can) changed the container *)
Theorem C136_which : forall c n l s t1 m t2, nc_ok c -> nc_msg c || negb (nc_batch c) = true -> nrun c (n_init n) l = Some (s, t1 ++ NAll m :: t2) ->
  m = latest (nlab t1) /\ m <> None.
Proof.
  intros c n l s t1 m t2 OK NB E. apply (G_reach _ _ _ _ _ OK) in E. destruct (g_all _ _ _ E t1 m t2 eq_refl) as (_ & _ & C). exact (C NB).
Qed.
(** when no handler runs and no write is in flight, it was called after the last write that succeeded *)
Theorem C136_told_at_rest : forall c n l s t, nc_ok c -> nc_all c = true -> nrun c (n_init n) l = Some (s, t) -> at_rest (n_s s) -> owed t = false.
Proof.
  intros c n l s t OK NA E (R1 & R2). apply (G_reach _ _ _ _ _ OK) in E. destruct E as [_ _ _ GA _ _ _ GO _]. unfold cb, push in GA.
  destruct (n_at s) as [|w|w|w| |]; try (rewrite R1 in GA; exfalso; solve [discriminate GA | firstorder (destruct x; discriminate)]).
  destruct (owed t); [|reflexivity]. destruct (GO NA eq_refl) as [(_ & f & H & _)|[(H & _)|H]]; [rewrite R1 in H; contradiction|rewrite R1 in H; contradiction|congruence].
Qed.
Definition cfg136 := cfg135 true false true.
(** thread 0 sends while on_msg_send runs: on_all_msg_send is called once, with the message sent last *)
Definition run136 : list nact := up135 ++ send135 [[Byte.x07]] ++ [NDone true; NDo (ACall 0 [[Byte.x08]] false false); NDo (AThread 0); NDo (AThread 0); NDo (AThread 0); NDo (AThread 0); NRet []; NLook] ++ next135 ++ [NDone true; NRet []; NLook; NRet []] ++ next135 ++ map NDo [AStrand; AStrand].
Example C136_ex : exists s t1, nc_ok cfg136 /\ nrun cfg136 (n_init 1) run136 = Some (s, t1 ++ NAll (Some [Byte.x08]) :: map NL [LTau; LTau; LTau; LTau; LTau; LTau; LTau]) /\
  queued (nlab t1) = [[Byte.x07]; [Byte.x08]] /\ went (nlab t1) = [[Byte.x07]; [Byte.x08]] /\ latest (nlab t1) = Some [Byte.x08] /\ owed t1 = true /\ at_rest (n_s s) /\ (forall m, ~ In (NAll m) t1).
Proof.
  eexists. exists (match nrun cfg136 (n_init 1) run136 with Some (_, t) => firstn (length t - 8) t | None => [] end).
  split; [split; [reflexivity|intros _; reflexivity]|]. split; [vm_compute; reflexivity|]. vm_compute. repeat split. intros m H. repeat (destruct H as [H|H]; [discriminate H|]). exact H.
Qed.
(** the container of on_msg_send(msg_can) emptied: an empty message *)
Example C136_which_sharp : exists s t1 t2, nc_ok (cfg135 false true true) /\ nrun (cfg135 false true true) (n_init 1) (up135 ++ send135 [[Byte.x07]; [Byte.x08]] ++ [NDone true; NRet []; NLook]) = Some (s, t1 ++ NAll None :: t2) /\ latest (nlab t1) = Some [Byte.x08].
Proof.
  eexists. exists (match nrun (cfg135 false true true) (n_init 1) (up135 ++ send135 [[Byte.x07]; [Byte.x08]] ++ [NDone true; NRet []; NLook]) with Some (_, t) => firstn (length t - 1) t | None => [] end), [].
  split; [split; [reflexivity|intros H; discriminate H]|]. split; vm_compute; reflexivity.
Qed.
Print Assumptions C136_all_gone_when_told.
Print Assumptions C136_which.
Print Assumptions C136_told_at_rest.
