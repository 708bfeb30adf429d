(** Lemmas about sending. *)
From Coq Require Import List NArith Bool Arith Lia ZifyBool ZifyNat ZifyN.
From Verif Require Import M_Bytes M_Queue M_Send S_Queue S_Send L_Queue.
Import ListNotations.
Open Scope N_scope.

Lemma queued_app a b : queued (a ++ b) = queued a ++ queued b.
Proof. induction a as [|l a IH]; [reflexivity|]. destruct l; cbn [app queued]; rewrite ?IH, <- ?app_assoc; reflexivity. Qed.
Lemma handed_app a b : handed (a ++ b) = handed a ++ handed b.
Proof. induction a as [|l a IH]; [reflexivity|]. destruct l; cbn [app handed]; rewrite ?IH, <- ?app_assoc; reflexivity. Qed.
Lemma started_app a b : started (a ++ b) = started a ++ started b.
Proof. induction a as [|l a IH]; [reflexivity|]. destruct l; cbn [app started]; rewrite ?IH; reflexivity. Qed.
Lemma finished_app a b : finished (a ++ b) = finished a ++ finished b.
Proof. induction a as [|l a IH]; [reflexivity|]. destruct l; cbn [app finished]; rewrite ?IH; reflexivity. Qed.
Lemma no_prior_app a b : no_prior (a ++ b) <-> no_prior a /\ no_prior b.
Proof. induction a as [|l a IH]; [cbn [app no_prior]; tauto|]. destruct l as [[|]| | | | | | |]; cbn [app no_prior]; tauto. Qed.
Lemma up_snoc a l : up (a ++ [l]) = match l with LUp => true | LDown => false | _ => up a end.
Proof. unfold up. rewrite fold_left_app. reflexivity. Qed.
Lemma failed_snoc a l : failed (a ++ [l]) = match l with LUp => false | LErr _ => true | _ => failed a end.
Proof. unfold failed. rewrite fold_left_app. reflexivity. Qed.

Definition tsender (f : frame) : Prop := match f with FCheck _ _ _ | FEnq _ _ | FReady | FLoad => True | _ => False end.
Definition ssender (f : frame) : Prop := match f with FDo false => True | _ => tsender f end.
Definition neutral (f : frame) : Prop := match f with FEmpty => True | _ => ssender f end.
Definition owner (f : frame) : Prop := match f with FMove | FBuild | FClear | FSent | FErr | FErrClear | FDo true => True | _ => False end.
Definition filled (f : frame) : Prop := match f with FBuild | FSent | FErr => True | _ => False end.

Inductive shape : bool -> list (list item) -> list item -> list frame -> Prop :=
| sh_on w rest g : (rest = [] \/ rest = [FUser]) -> match g with None => True | Some f => neutral f end -> w <> [] ->
    shape true [w] w (push g rest)
| sh_off rest g : (rest = [] \/ rest = [FUser]) -> match g with None => True | Some f => neutral f end ->
    shape false [] [] (push g rest)
| sh_own o rest sm : owner o -> (rest = [] \/ rest = [FUser]) -> filled o \/ sm = [] -> shape true [] sm (o :: rest)
| sh_cb x sm : x = FSent \/ x = FErr -> shape true [] sm [FUser; x]
| sh_cb2 g x sm : x = FSent \/ x = FErr -> ssender g -> shape true [] sm [g; FUser; x].

Definition mid (s : sstate) : list item := match strand s with FBuild :: _ => smsgs s | _ => [] end.

Definition waker (f : frame) : bool := match f with FReady | FLoad | FDo false | FEmpty => true | _ => false end.
Definition wakes (s : sstate) : Prop :=
  flag s = true \/ (posted s > 0)%nat \/ (exists f, In f (strand s) /\ waker f = true) \/
  (exists f, In (Some f) (threads s) /\ waker f = true).

Record inv (tr : list label) (s : sstate) : Prop := {
  i_thr : forall f, In (Some f) (threads s) -> tsender f;
  i_shape : shape (flag s) (writes s) (smsgs s) (strand s);
  i_order : no_prior tr -> handed tr ++ mid s ++ sb s = queued tr;
  i_writes : started tr = finished tr ++ writes s;
  i_wake : sb s <> [] -> ready s = true -> failed tr = false -> wakes s;
  i_ready : ready s = up tr;
  i_err : In FErr (strand s) \/ In FErrClear (strand s) -> failed tr = true
}.

Lemma out_split c s l x q : q_out_bytes (sc_W c) (mk_q (sb s) x) (batch_size c) = (l, q) ->
  l ++ qitems q = sb s /\ (sb s <> [] -> l <> []).
Proof.
  unfold q_out_bytes. cbn [qitems]. destruct (_ =? _).
  - intros E. inversion E; subst. cbn [qitems]. rewrite app_nil_r. auto.
  - destruct (take_bytes (sc_W c) 0 (batch_size c) (sb s)) as [[a z] b] eqn:T. intros E. inversion E; subst. cbn [qitems]. clear E.
    revert T. generalize 0 at 1 as n0. intros n0. revert n0 l z b. induction (sb s) as [|m ms IH]; intros n0 l z b T; cbn [take_bytes] in T.
    + inversion T; subst. auto.
    + cbv zeta in T. destruct (_ <=? _).
      * inversion T; subst. cbn [app]. split; [reflexivity|congruence].
      * destruct (take_bytes _ _ _ ms) as [[a1 s1] b1] eqn:T1. inversion T; subst. apply IH in T1. destruct T1 as (T1 & _).
        cbn [app]. rewrite T1. split; [reflexivity|congruence].
Qed.

Lemma put_In i x l f : In f (put i x l) -> f = x \/ In f l.
Proof.
  unfold put. rewrite !in_app_iff. intros [H|[[H|[]]|H]]; auto.
  - right. rewrite <- (firstn_skipn i l). apply in_or_app. auto.
  - right. rewrite <- (firstn_skipn (S i) l). apply in_or_app. auto.
Qed.
Lemma In_put_same i x l y : nth_error l i = Some y -> In x (put i x l).
Proof. intros _. unfold put. apply in_or_app. right. left. reflexivity. Qed.
Lemma In_put_other i x l y f : nth_error l i = Some y -> In f l -> f = y \/ In f (put i x l).
Proof.
  revert l. induction i as [|i IH]; intros [|z l] E H; cbn [nth_error] in E; try discriminate.
  - assert (z = y) by congruence. subst. destruct H as [H|H]; [auto|]. right. unfold put. cbn [firstn skipn app]. right. exact H.
  - destruct H as [H|H].
    + right. subst. unfold put. cbn [firstn app]. left. reflexivity.
    + destruct (IH l E H) as [H1|H1]; [auto|]. right. unfold put in *. cbn [firstn skipn app] in *. right. exact H1.
Qed.

(** how a step of thread [i] affects the wake-up condition *)
Lemma wakes_put s i x y :
  nth_error (threads s) i = Some y -> (match y with Some f => waker f = true -> match x with Some g => waker g = true | None => False end | None => True end) ->
  wakes s -> wakes (set_threads s (put i x (threads s))).
Proof.
  intros E H W. unfold wakes in *. cbn [set_threads flag posted strand threads].
  destruct W as [W|[W|[W|(f & W1 & W2)]]]; auto.
  right. right. right. destruct (In_put_other i x _ _ _ E W1) as [<-|H1].
  - specialize (H W2). destruct x as [g|]; [|contradiction]. exists g. split; [|exact H]. eapply In_put_same. exact E.
  - exists f. auto.
Qed.

Definition quiet_parts (fl : bool) (wr : list (list item)) (sm : list item) : Prop :=
  (fl = true /\ wr = [sm] /\ sm <> []) \/ (fl = false /\ wr = [] /\ sm = []).
Definition under (st : list frame) : Prop := st = [] \/ st = [FUser].
Lemma sh_quiet fl wr sm st : quiet_parts fl wr sm -> under st -> shape fl wr sm st.
Proof.
  intros [(-> & -> & H)|(-> & -> & ->)] U.
  - apply (sh_on sm st None); auto.
  - apply (sh_off st None); auto.
Qed.
Lemma sh_neutral fl wr sm f st : quiet_parts fl wr sm -> neutral f -> under st -> shape fl wr sm (f :: st).
Proof.
  intros [(-> & -> & H)|(-> & -> & ->)] N U.
  - apply (sh_on sm st (Some f)); auto.
  - apply (sh_off st (Some f)); auto.
Qed.
Lemma shape_nil fl wr sm : shape fl wr sm [] -> quiet_parts fl wr sm.
Proof. intros H. unfold quiet_parts. inversion H; subst; auto. Qed.
Lemma shape_user fl wr sm st : shape fl wr sm (FUser :: st) ->
  (quiet_parts fl wr sm /\ st = []) \/ (fl = true /\ wr = [] /\ (st = [FSent] \/ st = [FErr])).
Proof.
  intros H. unfold quiet_parts. inversion H as [w rest g HR HG HW EF EWr ESm EST|rest g HR HG EF EWr ESm EST|o rest sm0 HO HR HF EF EWr ESm EST|x sm0 HX EF EWr ESm EST|g x sm0 HX HG EF EWr ESm EST]; subst.
  - destruct g as [f|]; cbn [push] in EST; [inversion EST; subst; contradiction|]. destruct HR; subst; [discriminate|]. inversion EST; subst. left. split; [|reflexivity]. auto.
  - destruct g as [f|]; cbn [push] in EST; [inversion EST; subst; contradiction|]. destruct HR; subst; [discriminate|]. inversion EST; subst. left. split; [|reflexivity]. auto.
  - contradiction.
  - right. destruct HX; subst; auto.
  - contradiction.
Qed.
Lemma shape_top fl wr sm f st : f <> FUser -> shape fl wr sm (f :: st) ->
  (quiet_parts fl wr sm /\ neutral f /\ under st) \/
  (fl = true /\ wr = [] /\ owner f /\ under st /\ (filled f \/ sm = [])) \/
  (fl = true /\ wr = [] /\ ssender f /\ (st = [FUser; FSent] \/ st = [FUser; FErr])).
Proof.
  intros NU H. unfold quiet_parts. inversion H as [w rest g HR HG HW EF EWr ESm EST|rest g HR HG EF EWr ESm EST|o rest sm0 HO HR HF EF EWr ESm EST|x sm0 HX EF EWr ESm EST|g x sm0 HX HG EF EWr ESm EST]; subst.
  - destruct g as [f0|]; cbn [push] in EST; [|destruct HR; subst; [discriminate|]; inversion EST; subst; contradiction NU; reflexivity].
    inversion EST; subst. left. auto.
  - destruct g as [f0|]; cbn [push] in EST; [|destruct HR; subst; [discriminate|]; inversion EST; subst; contradiction NU; reflexivity].
    inversion EST; subst. left. auto.
  - right. left. auto.
  - contradiction NU; reflexivity.
  - right. right. destruct HX; subst; auto.
Qed.

Lemma inv_step tr s l s1 : inv tr s ->
  (forall f, In (Some f) (threads s1) -> tsender f) ->
  shape (flag s1) (writes s1) (smsgs s1) (strand s1) ->
  match l with
  | LEnq p it => if p then True else mid s1 ++ sb s1 = mid s ++ sb s ++ it
  | LWrite w => w ++ mid s1 ++ sb s1 = mid s ++ sb s
  | _ => mid s1 ++ sb s1 = mid s ++ sb s
  end ->
  match l with
  | LWrite w => writes s1 = writes s ++ [w]
  | LOk w | LErr w => writes s = w :: writes s1
  | _ => writes s1 = writes s
  end ->
  ready s1 = match l with LUp => true | LDown => false | _ => ready s end ->
  (In FErr (strand s1) \/ In FErrClear (strand s1) -> failed (tr ++ [l]) = true) ->
  (sb s1 <> [] -> ready s1 = true -> failed (tr ++ [l]) = false -> wakes s1) ->
  inv (tr ++ [l]) s1.
Proof.
  intros [IT IS IO IW IK IR IE] HT HS HO HW HR HE HK. constructor; auto.
  - rewrite queued_app, handed_app, no_prior_app. intros (NP & NPl). specialize (IO NP).
    destruct l as [[|] it| |w|w|w| | |]; cbn [queued handed no_prior] in *; rewrite ?app_nil_r; rewrite <- ?IO.
    + contradiction.
    + rewrite HO. rewrite <- !app_assoc. reflexivity.
    + rewrite HO. reflexivity.
    + rewrite <- !app_assoc. rewrite HO. reflexivity.
    + rewrite HO. reflexivity.
    + rewrite HO. reflexivity.
    + rewrite HO. reflexivity.
    + rewrite HO. reflexivity.
    + rewrite HO. reflexivity.
  - rewrite started_app, finished_app, IW. destruct l; cbn [started finished]; rewrite ?app_nil_r, ?HW, <- ?app_assoc; reflexivity.
  - rewrite up_snoc, HR, IR. destruct l; reflexivity.
Qed.

Ltac cases f := destruct f as [|it p ovf|it p| | |b| | | | | | |].
Ltac red_s := cbn [set_sb set_smsgs set_flag set_writes set_posted set_strand set_threads set_ready sb smsgs flag writes posted strand threads ready push] in *.

Lemma mid_sb s : match strand s with FBuild :: _ => False | _ => True end -> mid s = [].
Proof. unfold mid. destruct (strand s) as [|f st]; [reflexivity|]. destruct f; tauto. Qed.

(** the wake-up condition when the running handler goes on *)
Lemma wakes_strand s s1 f st nxt : strand s = f :: st -> threads s1 = threads s -> posted s1 = posted s -> strand s1 = push nxt st ->
  (flag s = true -> flag s1 = true \/ match nxt with Some g => waker g = true | None => False end) ->
  (waker f = true -> flag s1 = true \/ match nxt with Some g => waker g = true | None => False end) ->
  wakes s -> wakes s1.
Proof.
  intros ES ET EP ES1 H1 H2 W.
  assert (K : flag s1 = true \/ match nxt with Some g => waker g = true | None => False end -> wakes s1).
  { intros [K|K]; [left; exact K|]. destruct nxt as [g|]; [|contradiction]. right. right. left. exists g. rewrite ES1. split; [left; reflexivity|exact K]. }
  destruct W as [W|[W|[(g & W1 & W2)|(g & W1 & W2)]]].
  - auto.
  - right. left. rewrite EP. exact W.
  - rewrite ES in W1. destruct W1 as [<-|W1]; [auto|]. right. right. left. exists g. split; [|exact W2]. rewrite ES1. destruct nxt; [right|]; exact W1.
  - right. right. right. exists g. rewrite ET. auto.
Qed.

Ltac destruct_nxt := try (repeat match goal with |- context [match ?x with _ => _ end] => destruct x end; first [exact I | reflexivity | contradiction]).
Lemma strand_inv c s tr f st s0 nxt l : inv tr s -> strand s = f :: st -> f <> FUser -> exec c true s f = (s0, nxt, l) ->
  inv (tr ++ [l]) (set_strand s0 (push nxt st)).
Proof.
  intros IV ES NU E. pose proof IV as [IT IS IO IW IK IR IE]. rewrite ES in IS.
  pose proof (shape_top _ _ _ _ _ NU IS) as SH.
  assert (MS : mid s = match f with FBuild => smsgs s | _ => [] end) by (unfold mid; rewrite ES; reflexivity).
  assert (UN : forall f g, under st -> match (f : frame) with FBuild => False | _ => True end -> mid (set_strand s (push g st)) = match g with Some FBuild => smsgs s | _ => [] end)
    by (intros f0 g [->| ->] _; destruct g as [[]|]; reflexivity).
  assert (ERR : forall st' l, (l = LTau \/ l = LRefuse \/ (exists p it, l = LEnq p it) \/ exists w, l = LWrite w) ->
     (st' = st \/ exists g, st' = g :: st /\ g <> FErr /\ (g = FErrClear -> f = FErr)) ->
     In FErr st' \/ In FErrClear st' -> failed (tr ++ [l]) = true).
  { intros st' l0 HL HG HI. rewrite failed_snoc. assert (F : failed tr = true).
    { apply IE. rewrite ES. cbn [In]. destruct HG as [->|(g & -> & G1 & G2)]; [tauto|]. cbn [In] in HI.
      destruct HI as [[HI|HI]|[HI|HI]]; auto; congruence. }
    destruct HL as [->|[->|[(p0 & it0 & ->)|(w0 & ->)]]]; exact F. }
  assert (ERR' : In FErr (push nxt st) \/ In FErrClear (push nxt st) -> failed (tr ++ [l]) = true).
  { apply ERR.
    - cases f; cbn [exec] in E; repeat match type of E with context [match ?x with _ => _ end] => destruct x end; inversion E; eauto 6.
    - assert (HN : match nxt with Some FErr => False | Some FErrClear => f = FErr | _ => True end).
      { cases f; cbn [exec] in E; repeat match type of E with context [match ?x with _ => _ end] => destruct x end; inversion E; auto. }
      destruct nxt as [g|]; [right; exists g|auto]. split; [reflexivity|]. destruct g; split; congruence || tauto. }
  cases f; cbn [exec] in E; try congruence.
  - (* FCheck *) assert (s0 = s /\ match nxt with Some (FEnq _ _) | None => True | _ => False end /\ (l = LTau \/ l = LRefuse)) as (-> & HN & HL)
      by (destruct (ovf || _); inversion E; subst; auto).
    apply (inv_step _ _ _ _ IV); red_s; auto; try exact ERR'.
    + destruct SH as [(Q & N & U)|[(_ & _ & [] & _)|(EF & EW & N & HS)]].
      * destruct nxt as [g|]; [apply sh_neutral|apply sh_quiet]; auto. destruct g; tauto.
      * rewrite EF, EW. destruct nxt as [g|]; [|destruct HS; subst; apply sh_cb; auto].
        destruct g; try contradiction; destruct HS; subst; apply sh_cb2; auto; exact I.
    + rewrite MS. destruct HL; subst; unfold mid; red_s; destruct nxt as [[]|]; try contradiction HN; try reflexivity;
        destruct SH as [(_ & _ & [->| ->])|[(_ & _ & [] & _)|(_ & _ & _ & [->| ->])]]; reflexivity.
    + destruct HL; subst; reflexivity.
    + destruct HL; subst; reflexivity.
    + intros A B C. assert (C' : failed tr = false) by (rewrite failed_snoc in C; destruct HL; subst; exact C).
      apply (wakes_strand s _ _ st nxt ES); auto; discriminate.
  - (* FEnq *) inversion E; subst; clear E. apply (inv_step _ _ _ _ IV); red_s; auto; try exact ERR'.
    + destruct SH as [(Q & N & U)|[(_ & _ & [] & _)|(EF & EW & N & HS)]].
      * apply sh_neutral; auto.
      * rewrite EF, EW. destruct HS; subst; apply sh_cb2; auto; exact I.
    + destruct p; [exact I|]. rewrite MS. unfold mid. red_s. reflexivity.
    + intros _ _ _. right. right. left. exists FReady. split; [left; reflexivity|reflexivity].
  - (* FReady *) inversion E; subst; clear E. apply (inv_step _ _ _ _ IV); red_s; auto; try exact ERR'.
    + destruct SH as [(Q & N & U)|[(_ & _ & [] & _)|(EF & EW & N & HS)]].
      * destruct (ready s0); [apply sh_neutral|apply sh_quiet]; auto.
      * rewrite EF, EW. destruct (ready s0), HS; subst; first [apply sh_cb2; auto; exact I | apply sh_cb; auto].
    + rewrite MS. unfold mid. red_s. destruct (ready s0); [reflexivity|].
      destruct SH as [(_ & _ & [->| ->])|[(_ & _ & [] & _)|(_ & _ & _ & [->| ->])]]; reflexivity.
    + rewrite failed_snoc. intros A B C. apply (wakes_strand s0 _ _ st (if ready s0 then Some FLoad else None) ES); red_s; auto.
      rewrite B. auto.
  - (* FLoad *) assert (s0 = s /\ nxt = (if flag s then None else Some (FDo false)) /\ l = LTau) as (-> & -> & ->) by (destruct (flag s); inversion E; auto).
    apply (inv_step _ _ _ _ IV); red_s; auto; try exact ERR'.
    + destruct SH as [(Q & N & U)|[(_ & _ & [] & _)|(EF & EW & N & HS)]].
      * destruct (flag s); [apply sh_quiet|apply sh_neutral]; auto.
      * rewrite EF, EW. destruct HS; subst; apply sh_cb; auto.
    + rewrite MS. unfold mid. red_s. destruct (flag s); [|reflexivity]. cbn [push].
      destruct SH as [(_ & _ & [->| ->])|[(_ & _ & [] & _)|(_ & _ & _ & [->| ->])]]; reflexivity.
    + rewrite failed_snoc. intros A B C. apply (wakes_strand s _ _ st (if flag s then None else Some (FDo false)) ES); red_s; auto.
      destruct (flag s); auto.
  - (* FDo *) destruct (negb b && flag s) eqn:EB.
    + inversion E; subst; clear E. apply andb_prop in EB. destruct EB as (EB & EF). destruct b; [discriminate|].
      apply (inv_step _ _ _ _ IV); red_s; auto; try exact ERR'.
      * destruct SH as [(Q & N & U)|[(_ & _ & [] & _)|(_ & EW & N & HS)]].
        -- apply sh_quiet; auto.
        -- rewrite EF, EW. destruct HS; subst; apply sh_cb; auto.
      * rewrite MS. unfold mid. red_s. destruct SH as [(_ & _ & [->| ->])|[(_ & _ & [] & _)|(_ & _ & _ & [->| ->])]]; reflexivity.
      * intros _ _ _. left. exact EF.
    + inversion E; subst; clear E. apply (inv_step _ _ _ _ IV); red_s; auto; try exact ERR'.
      * destruct SH as [(Q & N & U)|[(EF & EW & O & U & F)|(EF & EW & N & HS)]].
        -- destruct b; [contradiction|]. cbn [negb andb] in EB. destruct Q as [(Q & _)|(Q1 & Q2 & Q3)]; [congruence|].
           rewrite Q2, Q3. apply sh_own; solve [exact I | auto | left; exact I].
        -- rewrite EW. apply sh_own; [exact I|exact U|]. destruct F as [F|F]; [destruct b; contradiction|auto].
        -- destruct b; [contradiction|]. cbn [negb andb] in EB. congruence.
      * rewrite MS. unfold mid. red_s. reflexivity.
      * intros _ _ _. left. reflexivity.
  - (* FMove *) destruct (q_out_bytes _ _ _) as [out q] eqn:EQ. inversion E; subst; clear E. apply out_split in EQ. destruct EQ as (EQ & _).
    destruct SH as [(_ & [] & _)|[(EF & EW & O & U & F)|(_ & _ & [] & _)]]. destruct F as [[]|F].
    apply (inv_step _ _ _ _ IV); red_s; auto; try exact ERR'.
    + rewrite EF, EW. apply sh_own; solve [exact I | auto | left; exact I].
    + rewrite MS. unfold mid. red_s. rewrite F. exact EQ.
    + intros _ _ _. left. exact EF.
  - (* FBuild *) destruct SH as [(_ & [] & _)|[(EF & EW & O & U & F)|(_ & _ & [] & _)]]. destruct (smsgs s) as [|m ms] eqn:ESM; inversion E; subst; clear E.
    + apply (inv_step _ _ _ _ IV); red_s; auto; try exact ERR'.
      * rewrite EF, EW, ESM. apply sh_own; solve [exact I | auto | left; exact I].
      * rewrite MS. unfold mid. red_s. reflexivity.
      * intros _ _ _. left. exact EF.
    + apply (inv_step _ _ _ _ IV); red_s; auto; try exact ERR'.
      * rewrite EF, EW, ESM. cbn [app]. apply sh_quiet; [left; split; [reflexivity|split; [reflexivity|congruence]]|exact U].
      * rewrite MS. unfold mid. red_s. destruct U as [->| ->]; reflexivity.
      * intros _ _ _. left. exact EF.
  - (* FClear *) inversion E; subst; clear E. destruct SH as [(_ & [] & _)|[(EF & EW & O & U & F)|(_ & _ & [] & _)]]. destruct F as [[]|F].
    apply (inv_step _ _ _ _ IV); red_s; auto; try exact ERR'.
    + rewrite EW, F. apply sh_neutral; [right; auto|exact I|exact U].
    + rewrite MS. reflexivity.
    + intros _ _ _. right. right. left. exists FEmpty. split; [left; reflexivity|reflexivity].
  - (* FEmpty *) inversion E; subst; clear E. destruct SH as [(Q & N & U)|[(_ & _ & [] & _)|(_ & _ & [] & _)]].
    apply (inv_step _ _ _ _ IV); red_s; auto; try exact ERR'.
    + destruct (sb s0); [apply sh_quiet|apply sh_neutral]; solve [auto | exact I].
    + rewrite MS. unfold mid. red_s. destruct (sb s0); [|reflexivity]. destruct U as [->| ->]; reflexivity.
    + rewrite failed_snoc. intros A B C. destruct (sb s0) as [|x xs] eqn:EB; [congruence|].
      right. right. left. exists (FDo false). split; [left; reflexivity|reflexivity].
  - (* FSent *) inversion E; subst; clear E. destruct SH as [(_ & [] & _)|[(EF & EW & O & U & F)|(_ & _ & [] & _)]].
    apply (inv_step _ _ _ _ IV); red_s; auto; try exact ERR'.
    + rewrite EF, EW. apply sh_own; solve [exact I | auto | left; exact I].
    + rewrite MS. reflexivity.
    + intros _ _ _. left. exact EF.
  - (* FErr *) inversion E; subst; clear E. destruct SH as [(_ & [] & _)|[(EF & EW & O & U & F)|(_ & _ & [] & _)]].
    apply (inv_step _ _ _ _ IV); red_s; auto; try exact ERR'.
    + rewrite EF, EW. apply sh_own; solve [exact I | auto | left; exact I].
    + rewrite MS. reflexivity.
    + intros _ _ _. left. exact EF.
  - (* FErrClear *) inversion E; subst; clear E. destruct SH as [(_ & [] & _)|[(EF & EW & O & U & F)|(_ & _ & [] & _)]]. destruct F as [[]|F].
    apply (inv_step _ _ _ _ IV); red_s; auto; try exact ERR'.
    + rewrite EW, F. apply sh_quiet; [right; auto|exact U].
    + rewrite MS. unfold mid. red_s. destruct U as [->| ->]; reflexivity.
    + intros _ _ H. exfalso. rewrite failed_snoc in H. rewrite IE in H by (rewrite ES; cbn [In]; auto). discriminate.
Qed.

Lemma act_inv c s a tr s1 l : inv tr s -> act c s a = Some (s1, l) -> inv (tr ++ [l]) s1.
Proof.
  intros IV E. pose proof IV as [IT IS IO IW IK IR IE].
  assert (NE : forall l, (match l with LErr _ | LUp => False | _ => True end) -> failed (tr ++ [l]) = failed tr)
    by (intros l0 H; rewrite failed_snoc; destruct l0; tauto).
  destruct a as [i it p ovf|i| | | |it p ovf| |k ok|i|]; cbn [act] in E.
  - (* ACall *)
    destruct (nth_error (threads s) i) as [[f|]|] eqn:EN; try discriminate. inversion E; subst. clear E.
    apply (inv_step _ _ _ _ IV); red_s; auto; rewrite ?NE by exact I; auto.
    + intros f H. apply put_In in H. destruct H as [H|H]; [inversion H; exact I|auto].
    + intros A B C. apply (wakes_put s i _ None EN); auto.
  - (* AThread *)
    destruct (nth_error (threads s) i) as [[f|]|] eqn:EN; try discriminate.
    assert (TS : tsender f) by (apply IT; eapply nth_error_In; exact EN).
    assert (THR : forall x, match x with Some g => tsender g | None => True end -> forall g, In (Some g) (put i x (threads s)) -> tsender g).
    { intros x H1 g H. apply put_In in H. destruct H as [H|H]; [subst; exact H1|auto]. }
    cases f; try contradiction TS; cbn [exec] in E.
    + (* FCheck *) destruct (ovf || _); inversion E; subst; clear E;
        (apply (inv_step _ _ _ _ IV); red_s; auto; rewrite ?NE by exact I; auto;
         [apply THR; exact I|intros A B C; apply (wakes_put s i _ _ EN); [discriminate|auto]]).
    + (* FEnq *) inversion E; subst; clear E. apply (inv_step _ _ _ _ IV); red_s; auto; rewrite ?NE by exact I; auto.
      * apply THR. exact I.
      * destruct p; [exact I|]. unfold mid. red_s. reflexivity.
      * intros _ _ _. right. right. right. exists FReady. split; [|reflexivity]. eapply In_put_same. exact EN.
    + (* FReady *) inversion E; subst; clear E. apply (inv_step _ _ _ _ IV); red_s; auto; rewrite ?NE by exact I; auto.
      * apply THR. destruct (ready s); exact I.
      * intros A B C. apply (wakes_put s i _ _ EN); [rewrite B; reflexivity|auto].
    + (* FLoad *) destruct (flag s) eqn:EF.
      * inversion E; subst; clear E. apply (inv_step _ _ _ _ IV); red_s; rewrite ?EF; auto; rewrite ?NE by exact I; auto.
        -- apply THR. exact I.
        -- intros _ _ _. left. exact EF.
      * inversion E; subst; clear E. apply (inv_step _ _ _ _ IV); red_s; rewrite ?EF; auto; rewrite ?NE by exact I; auto.
        -- apply THR. exact I.
        -- intros _ _ _. right. left. red_s. lia.
  - (* AStrand *)
    destruct (strand s) as [|f st] eqn:ES; [discriminate|].
    assert (E' : (let '(s1, nxt, l) := exec c true s f in Some (set_strand s1 (push nxt st), l)) = Some (s1, l) /\ f <> FUser)
      by (destruct f; try discriminate E; (split; [exact E|congruence])).
    clear E. destruct E' as (E & NU). destruct (exec c true s f) as [[s0 nxt] l0] eqn:EX. inversion E; subst.
    exact (strand_inv c s tr f st s0 nxt l IV ES NU EX).
  - (* ATask *)
    destruct (strand s) as [|f st] eqn:ES; [|discriminate]. destruct (posted s) as [|n] eqn:EP; [discriminate|]. inversion E; subst; clear E.
    apply (inv_step _ _ _ _ IV); red_s; auto; rewrite ?NE by exact I; auto.
    + apply shape_nil in IS. apply sh_neutral; [exact IS|exact I|left; reflexivity].
    + unfold mid. red_s. rewrite ES. reflexivity.
    + cbn [In]. intros [[H|[]]|[H|[]]]; discriminate.
    + intros _ _ _. right. right. left. exists (FDo false). split; [left|]; reflexivity.
  - (* AUser *)
    destruct (strand s) as [|f st] eqn:ES; [|discriminate]. inversion E; subst; clear E.
    apply (inv_step _ _ _ _ IV); red_s; auto; rewrite ?NE by exact I; auto.
    + apply shape_nil in IS. apply sh_quiet; [exact IS|right; reflexivity].
    + unfold mid. red_s. rewrite ES. reflexivity.
    + cbn [In]. intros [[H|[]]|[H|[]]]; discriminate.
    + intros A B C. destruct (IK A B C) as [W|[W|[(g & W1 & W2)|W]]]; [left; exact W|right; left; exact W|rewrite ES in W1; contradiction|right; right; right; exact W].
  - (* ACallS *)
    destruct (strand s) as [|f st] eqn:ES; [discriminate|]. destruct f; try discriminate. inversion E; subst; clear E.
    apply (inv_step _ _ _ _ IV); red_s; auto; rewrite ?NE by exact I; auto.
    + apply shape_user in IS. destruct IS as [(Q & ->)|(EF & EW & [->| ->])].
      * apply sh_neutral; [exact Q|exact I|right; reflexivity].
      * rewrite EF, EW. apply sh_cb2; [auto|exact I].
      * rewrite EF, EW. apply sh_cb2; [auto|exact I].
    + unfold mid. red_s. rewrite ES. reflexivity.
    + cbn [In] in *. intros [[H|H]|[H|H]]; try discriminate; auto.
    + intros A B C. destruct (IK A B C) as [W|[W|[(g & W1 & W2)|W]]]; [left; exact W|right; left; exact W| |right; right; right; exact W].
      right. right. left. exists g. red_s. rewrite ES in W1. split; [right; exact W1|exact W2].
  - (* AUserRet *)
    destruct (strand s) as [|f st] eqn:ES; [discriminate|]. destruct f; try discriminate. inversion E; subst; clear E.
    apply (inv_step _ _ _ _ IV); red_s; auto; rewrite ?NE by exact I; auto.
    + apply shape_user in IS. destruct IS as [(Q & ->)|(EF & EW & [->| ->])].
      * apply sh_quiet; [exact Q|left; reflexivity].
      * rewrite EF, EW. apply sh_own; [exact I|left; reflexivity|left; exact I].
      * rewrite EF, EW. apply sh_own; [exact I|left; reflexivity|left; exact I].
    + unfold mid. red_s. rewrite ES. apply shape_user in IS. destruct IS as [(Q & ->)|(EF & EW & [->| ->])]; reflexivity.
    + cbn [In] in *. intros [H|H]; auto.
    + intros A B C. destruct (IK A B C) as [W|[W|[(g & W1 & W2)|W]]]; [left; exact W|right; left; exact W| |right; right; right; exact W].
      rewrite ES in W1. destruct W1 as [<-|W1]; [discriminate|]. right. right. left. exists g. red_s. auto.
  - (* AComplete *)
    destruct (strand s) as [|f st] eqn:ES; [|discriminate]. destruct (nth_error (writes s) k) as [w|] eqn:EN; [|discriminate]. inversion E; subst; clear E.
    apply shape_nil in IS. destruct IS as [(EF & EW & HN)|(EF & EW & HN)]; rewrite EW in EN; [|destruct k; discriminate].
    destruct k as [|k]; [|destruct k; discriminate]. inversion EN; subst w.
    assert (DW : drop_nth 0 (writes s) = []) by (rewrite EW; reflexivity).
    apply (inv_step _ _ _ _ IV); red_s; auto.
    + rewrite DW, EF. apply sh_cb. destruct ok; auto.
    + unfold mid. red_s. rewrite ES. destruct ok; reflexivity.
    + destruct ok; rewrite EW; reflexivity.
    + destruct ok; reflexivity.
    + rewrite failed_snoc. destruct ok; [|reflexivity]. cbn [In]. intros [[H|[H|[]]]|[H|[H|[]]]]; discriminate.
    + intros _ _ _. left. exact EF.
  - (* AUp *)
    destruct (nth_error (threads s) i) as [[f|]|] eqn:EN; try discriminate. destruct (strand s) as [|f st] eqn:ES; [|discriminate].
    destruct (writes s) as [|w ws] eqn:EW; [|discriminate]. destruct (posted s) as [|n] eqn:EP; [|discriminate]. inversion E; subst; clear E.
    apply (inv_step _ _ _ _ IV); red_s; auto.
    + intros f H. apply put_In in H. destruct H as [H|H]; [inversion H; exact I|auto].
    + rewrite ES, EW. exact IS.
    + rewrite ES. cbn [In]. tauto.
    + intros _ _ _. right. right. right. exists FReady. split; [|reflexivity]. eapply In_put_same. exact EN.
  - (* ADown *)
    inversion E; subst; clear E. apply (inv_step _ _ _ _ IV); red_s; auto; rewrite ?NE by exact I; auto. discriminate.
Qed.

Lemma inv_init n : inv [] (send_init n).
Proof.
  constructor; cbn [send_init threads flag writes smsgs strand sb ready].
  - intros f H. apply repeat_spec in H. discriminate.
  - apply (sh_off [] None); auto.
  - reflexivity.
  - reflexivity.
  - congruence.
  - reflexivity.
  - cbn [In]. tauto.
Qed.

Lemma acts_inv c : forall al s tr ls s1, inv tr s -> acts c s al = Some (ls, s1) -> inv (tr ++ ls) s1.
Proof.
  induction al as [|a al IH]; intros s tr ls s1 I E; cbn [acts] in E.
  - inversion E; subst. rewrite app_nil_r. exact I.
  - destruct (act c s a) as [[s0 l]|] eqn:EA; [|discriminate]. destruct (acts c s0 al) as [[ls0 s2]|] eqn:EL; [|discriminate].
    inversion E; subst. pose proof (act_inv c s a tr s0 l I EA) as I1. pose proof (IH _ _ _ _ I1 EL) as I2. rewrite <- app_assoc in I2. exact I2.
Qed.
Lemma run_inv c n al ls s : acts c (send_init n) al = Some (ls, s) -> inv ls s.
Proof. intros E. exact (acts_inv c al _ [] ls s (inv_init n) E). Qed.

Lemma idle_no_wake s tr : inv tr s -> idle s -> ~ wakes s.
Proof.
  intros IV (TN & ES & EP & EW) W. destruct IV as [IT IS IO IW IK IR IE]. rewrite ES, EW in IS. apply shape_nil in IS.
  destruct W as [W|[W|[(f & W & _)|(f & W & _)]]].
  - destruct IS as [(_ & H & _)|(H & _)]; congruence.
  - lia.
  - rewrite ES in W. contradiction.
  - rewrite Forall_forall in TN. apply TN in W. discriminate.
Qed.

(** * Progress *)
Definition wmax (f : frame) : nat :=
  match f with
  | FUser => 1 | FCheck it _ _ => 19 + 7 * length it | FEnq it _ => 18 + 7 * length it | FReady => 10 | FLoad => 9
  | FDo _ => 7 | FMove => 6 | FBuild => 11 | FClear => 9 | FEmpty => 8 | FSent => 8 | FErr => 2 | FErrClear => 1
  end%nat.
Definition bump (s : sstate) : nat := match sb s with [] => 0 | _ => 7 end%nat.
Definition wtop (s : sstate) (f : frame) : nat :=
  match f with
  | FBuild => match smsgs s with [] => 3 + bump s | _ => 11 end
  | FClear => 2 + bump s | FEmpty => 1 + bump s | _ => wmax f
  end%nat.
Definition wopt (o : option frame) : nat := match o with Some f => wmax f | None => 0 end.
Definition wsum (l : list nat) : nat := fold_right Nat.add 0%nat l.
Definition wstrand (s : sstate) (st : list frame) : nat := match st with [] => 0 | f :: r => wtop s f + wsum (map wmax r) end%nat.
Definition meas (s : sstate) : nat :=
  (7 * length (sb s) + 8 * posted s + 10 * length (writes s) + wstrand s (strand s) + wsum (map wopt (threads s)))%nat.

Lemma wtop_max s f : (wtop s f <= wmax f)%nat.
Proof. unfold wtop, bump. destruct f; try lia; destruct (smsgs s), (sb s); cbn [wmax]; lia. Qed.
Lemma wstrand_max s st : (wstrand s st <= wsum (map wmax st))%nat.
Proof. destruct st as [|f r]; [apply Nat.le_refl|]. cbn [wstrand map]. change (wsum (wmax f :: map wmax r)) with (wmax f + wsum (map wmax r))%nat. pose proof (wtop_max s f). lia. Qed.
Lemma wsum_put i x l y : nth_error l i = Some y -> (wsum (map wopt (put i x l)) + wopt y = wsum (map wopt l) + wopt x)%nat.
Proof.
  revert l. induction i as [|i IH]; intros [|z l] E; cbn [nth_error] in E; try discriminate.
  - assert (z = y) by congruence. subst. unfold put. cbn [firstn skipn app map wsum fold_right]. lia.
  - specialize (IH l E). change (put (S i) x (z :: l)) with (z :: put i x l). cbn [map].
    change (wsum (wopt z :: map wopt l)) with (wopt z + wsum (map wopt l))%nat.
    change (wsum (wopt z :: map wopt (put i x l))) with (wopt z + wsum (map wopt (put i x l)))%nat. lia.
Qed.
Lemma wstrand_bump s st x : (wstrand (set_sb s x) st <= wstrand s st + 7)%nat.
Proof.
  destruct st as [|f r]; cbn [wstrand]; [lia|]. assert (wtop (set_sb s x) f <= wtop s f + 7)%nat; [|lia].
  unfold wtop, bump. red_s. destruct f; try lia; destruct (smsgs s), (sb s), x; lia.
Qed.
Lemma wstrand_push s nxt st : (wstrand s (push nxt st) <= match nxt with Some f => wtop s f | None => 0 end + wsum (map wmax st))%nat.
Proof. destruct nxt as [f|]; cbn [push wstrand]; [lia|]. apply wstrand_max. Qed.

Lemma go_meas c s a tr s1 l : inv tr s -> goes_on a = true -> act c s a = Some (s1, l) -> (meas s1 < meas s)%nat.
Proof.
  intros IV G E. pose proof IV as [IT IS IO IW IK IR IE]. destruct a as [i it p ovf|i| | | |it p ovf| |k ok|i|]; cbn [goes_on] in G; try discriminate; cbn [act] in E.
  - destruct (nth_error (threads s) i) as [[f|]|] eqn:EN; try discriminate.
    assert (TS : tsender f) by (apply IT; eapply nth_error_In; exact EN).
    assert (P : forall x, (wsum (map wopt (put i x (threads s))) + wmax f = wsum (map wopt (threads s)) + wopt x)%nat) by (intros x; exact (wsum_put i x _ _ EN)).
    cases f; try contradiction TS; cbn [exec] in E.
    + destruct (ovf || _); inversion E; subst; clear E; unfold meas; red_s.
      * specialize (P (Some (FEnq it p))). cbn [wopt wmax] in P. unfold wstrand, wtop, bump in *. red_s. lia.
      * specialize (P None). cbn [wopt wmax] in P. unfold wstrand, wtop, bump in *. red_s. lia.
    + inversion E; subst; clear E. unfold meas. red_s. specialize (P (Some FReady)). cbn [wopt wmax] in P.
      set (x := if p then it ++ sb s else sb s ++ it). pose proof (wstrand_bump s (strand s) x) as B.
      assert (LX : length x = (length it + length (sb s))%nat) by (subst x; destruct p; rewrite app_length; lia).
      change (wstrand (set_threads (set_sb s x) (put i (Some FReady) (threads s))) (strand s)) with (wstrand (set_sb s x) (strand s)). lia.
    + inversion E; subst; clear E. unfold meas. red_s. specialize (P (if ready s then Some FLoad else None)).
      change (wstrand (set_threads s (put i (if ready s then Some FLoad else None) (threads s))) (strand s)) with (wstrand s (strand s)).
      destruct (ready s); cbn [wopt wmax] in P; lia.
    + specialize (P None). cbn [wopt wmax] in P. destruct (flag s); inversion E; subst; clear E; unfold meas; red_s.
      * change (wstrand (set_threads s (put i None (threads s))) (strand s)) with (wstrand s (strand s)). lia.
      * change (wstrand (set_threads (set_posted s (S (posted s))) (put i None (threads s))) (strand s)) with (wstrand s (strand s)). lia.
  - destruct (strand s) as [|f st] eqn:ES; [discriminate|].
    assert (E' : (let '(s1, nxt, l) := exec c true s f in Some (set_strand s1 (push nxt st), l)) = Some (s1, l) /\ f <> FUser)
      by (destruct f; try discriminate E; (split; [exact E|congruence])).
    clear E. destruct E' as (E & NU). destruct (exec c true s f) as [[s0 nxt] l0] eqn:EX. inversion E; subst. clear E.
    pose proof (shape_top _ _ _ _ _ NU IS) as SH.
    assert (GEN : (7 * length (sb s0) + 8 * posted s0 + 10 * length (writes s0) + match nxt with Some g => wtop s0 g | None => 0 end
                   < 7 * length (sb s) + 8 * posted s + 10 * length (writes s) + wtop s f)%nat /\ threads s0 = threads s).
    { cases f; cbn [exec] in EX; try congruence.
      - destruct (ovf || _); inversion EX; subst; cbn [wtop wmax]; split; try reflexivity; lia.
      - inversion EX; subst. cbn [wtop wmax]. red_s. split; [|reflexivity]. destruct p; rewrite app_length; lia.
      - inversion EX; subst. destruct (ready s0); cbn [wtop wmax]; split; try reflexivity; lia.
      - destruct (flag s); inversion EX; subst; cbn [wtop wmax]; split; try reflexivity; lia.
      - destruct (negb b && flag s); inversion EX; subst; cbn [wtop wmax]; red_s; split; try reflexivity; lia.
      - destruct (q_out_bytes _ _ _) as [out q] eqn:EQ. inversion EX; subst. apply out_split in EQ. destruct EQ as (EQ & NE).
        destruct SH as [(_ & [] & _)|[(EF & EW & O & U & [[]|F])|(_ & _ & [] & _)]]. unfold wtop, bump. red_s. rewrite F. cbn [app wmax]. split; [|reflexivity].
        rewrite <- EQ, app_length. destruct out as [|m out]; cbn [app length] in *.
        + destruct (sb s) as [|x xs] eqn:EB; [|contradiction NE; congruence]. rewrite EQ. cbn [length]. lia.
        + lia.
      - destruct (smsgs s) as [|m ms] eqn:EM; inversion EX; subst; unfold wtop, bump; red_s; rewrite ?EM; split; try reflexivity; try lia.
        rewrite app_length. cbn [length]. lia.
      - inversion EX; subst. unfold wtop, bump; red_s. split; [lia|reflexivity].
      - inversion EX; subst. destruct (sb s0) eqn:EB; unfold wtop, bump; red_s; rewrite ?EB; cbn [wmax length]; split; try reflexivity; lia.
      - inversion EX; subst. cbn [wtop wmax]; red_s. split; [lia|reflexivity].
      - inversion EX; subst. cbn [wtop wmax]; red_s. split; [lia|reflexivity].
      - inversion EX; subst. cbn [wtop wmax]; red_s. split; [lia|reflexivity]. }
    destruct GEN as (GEN & ET). unfold meas. red_s. rewrite ES, ET. cbn [wstrand].
    change (wstrand (set_strand s0 (push nxt st)) (push nxt st)) with (wstrand s0 (push nxt st)).
    pose proof (wstrand_push s0 nxt st). lia.
  - destruct (strand s) as [|f st] eqn:ES; [|discriminate]. destruct (posted s) as [|n] eqn:EP; [discriminate|]. inversion E; subst; clear E.
    unfold meas. red_s. rewrite ES, EP. cbn [wstrand wtop wmax map wsum fold_right]. lia.
  - destruct (strand s) as [|f st] eqn:ES; [discriminate|]. destruct f; try discriminate. inversion E; subst; clear E.
    unfold meas. red_s. rewrite ES. cbn [wstrand wtop wmax].
    change (wstrand (set_strand s st) st) with (wstrand s st). pose proof (wstrand_max s st). lia.
  - subst. destruct ok; [|discriminate]. destruct (strand s) as [|f st] eqn:ES; [|discriminate]. destruct (nth_error (writes s) k) as [w|] eqn:EN; [|discriminate]. inversion E; subst; clear E.
    unfold meas. red_s. rewrite ES. cbn [wstrand wtop wmax map wsum fold_right].
    assert (L : length (writes s) = S (length (drop_nth k (writes s)))).
    { unfold drop_nth. rewrite app_length. assert (k < length (writes s))%nat by (apply nth_error_Some; congruence).
      rewrite firstn_length, skipn_length. lia. }
    rewrite L. lia.
Qed.

Lemma goes_length c : forall al s tr ls s1, inv tr s -> forallb goes_on al = true -> acts c s al = Some (ls, s1) ->
  (length al + meas s1 <= meas s)%nat.
Proof.
  induction al as [|a al IH]; intros s tr ls s1 I F E; cbn [acts forallb length] in *.
  - inversion E; subst. lia.
  - apply andb_prop in F. destruct F as (F1 & F2). destruct (act c s a) as [[s0 l]|] eqn:EA; [|discriminate]. destruct (acts c s0 al) as [[ls0 s2]|] eqn:EL; [|discriminate].
    inversion E; subst. pose proof (act_inv c s a tr s0 l I EA) as I1. pose proof (IH _ _ _ _ I1 F2 EL). pose proof (go_meas c s a tr s0 l I F1 EA). lia.
Qed.

Lemma stuck_idle c s : (forall a, goes_on a = true -> act c s a = None) -> idle s.
Proof.
  intros H. assert (ES : strand s = []).
  { destruct (strand s) as [|f st] eqn:ES; [reflexivity|exfalso]. pose proof (H AStrand eq_refl) as H1. pose proof (H AUserRet eq_refl) as H2. cbn [act] in *.
    rewrite ES in *. destruct f; try discriminate H2; destruct (exec _ _ _ _) as [[? ?] ?]; discriminate. }
  unfold idle. rewrite ES. split; [|split; [reflexivity|split]].
  - rewrite Forall_forall. intros [f|] HI; [exfalso|reflexivity]. apply In_nth_error in HI. destruct HI as (i & HI).
    pose proof (H (AThread i) eq_refl) as H1. cbn [act] in H1. rewrite HI in H1. destruct (exec _ _ _ _) as [[? ?] ?]; discriminate.
  - pose proof (H ATask eq_refl) as H1. cbn [act] in H1. rewrite ES in H1. destruct (posted s); [reflexivity|discriminate].
  - pose proof (H (AComplete 0 true) eq_refl) as H1. cbn [act] in H1. rewrite ES in H1. destruct (writes s); [reflexivity|discriminate].
Qed.

(** * The limit *)
Definition enq (o : option frame) : N := match o with Some (FEnq _ _) => 1 | _ => 0 end.
Definition calls (f : frame) : N := match f with FCheck _ _ _ | FEnq _ _ => 1 | _ => 0 end.
Definition nsum (l : list N) : N := fold_right N.add 0 l.
Definition good_frame (M : N) (f : frame) : Prop :=
  match f with FCheck it _ ovf => ovf = false /\ total it <= M | FEnq it _ => total it <= M | _ => True end.
Record jinv (c : send_cfg) (M K n : N) (s : sstate) : Prop := {
  j_len : lenN (threads s) = n;
  j_thr : forall f, In (Some f) (threads s) -> good_frame M f;
  j_str : forall f, In f (strand s) -> good_frame M f;
  j_one : nsum (map calls (strand s)) <= K;
  j_sum : total (sb s) + M * (nsum (map enq (threads s)) + nsum (map (fun f => enq (Some f)) (strand s))) <= send_limit c - 1 + M * (n + K)
}.

Lemma nsum_put i x l y : nth_error l i = Some y -> nsum (map enq (put i x l)) + enq y = nsum (map enq l) + enq x.
Proof.
  revert l. induction i as [|i IH]; intros [|z l] E; cbn [nth_error] in E; try discriminate.
  - assert (z = y) by congruence. subst. unfold put. cbn [firstn skipn app map nsum fold_right]. lia.
  - specialize (IH l E). change (put (S i) x (z :: l)) with (z :: put i x l). cbn [map].
    change (nsum (enq z :: map enq l)) with (enq z + nsum (map enq l)).
    change (nsum (enq z :: map enq (put i x l))) with (enq z + nsum (map enq (put i x l))). lia.
Qed.
Lemma put_len i x l y : nth_error l i = Some y -> lenN (put i x l) = lenN l.
Proof.
  intros E. assert (i < length l)%nat by (apply nth_error_Some; congruence). unfold lenN, put. rewrite !app_length, firstn_length, skipn_length. cbn [length]. lia.
Qed.
Lemma enq_count l : nsum (map enq l) <= lenN l.
Proof.
  unfold lenN. induction l as [|z l IH]; [apply N.le_refl|]. cbn [map length]. change (nsum (enq z :: map enq l)) with (enq z + nsum (map enq l)).
  assert (enq z <= 1) by (destruct z as [[]|]; cbn [enq]; lia). lia.
Qed.
Lemma enq_calls st : nsum (map (fun f => enq (Some f)) st) <= nsum (map calls st).
Proof.
  induction st as [|f st IH]; [apply N.le_refl|]. cbn [map].
  change (nsum (enq (Some f) :: map (fun f => enq (Some f)) st)) with (enq (Some f) + nsum (map (fun f => enq (Some f)) st)).
  change (nsum (calls f :: map calls st)) with (calls f + nsum (map calls st)).
  assert (enq (Some f) <= calls f) by (destruct f; cbn [enq calls]; lia). lia.
Qed.
Lemma under_calls st : under st -> nsum (map calls st) = 0.
Proof. intros [->| ->]; reflexivity. Qed.

Lemma act_jinv c M K n s a tr s1 l : inv tr s -> jinv c M K n s -> 0 < send_limit c -> K <= 1 -> send_limit c - 1 + M * (n + K) < sc_W c ->
  polite M a -> (in_callback a = true -> K = 1) -> act c s a = Some (s1, l) -> jinv c M K n s1.
Proof.
  intros IV J HL HK HW HP HC E. pose proof IV as [IT IS IO IW IK IR IE]. destruct J as [JL JT JS JO JB].
  assert (BO : bytes_of (sc_W c) (sb s) = total (sb s)) by (rewrite bytes_of_ok, N.mod_small by lia; reflexivity).
  destruct a as [i it p ovf|i| | | |it p ovf| |k ok|i|]; cbn [act] in E; cbn [polite] in HP; cbn [in_callback] in HC.
  - destruct (nth_error (threads s) i) as [[f|]|] eqn:EN; try discriminate. inversion E; subst. clear E.
    constructor; red_s; auto.
    + rewrite (put_len _ _ _ _ EN). reflexivity.
    + intros f H. apply put_In in H. destruct H as [H|H]; [inversion H; exact HP|auto].
    + pose proof (nsum_put i (Some (FCheck it p ovf)) _ _ EN) as P. cbn [enq] in P. replace (nsum (map enq (put i (Some (FCheck it p ovf)) (threads s)))) with (nsum (map enq (threads s))) by lia. exact JB.
  - destruct (nth_error (threads s) i) as [[f|]|] eqn:EN; try discriminate.
    assert (TS : tsender f) by (apply IT; eapply nth_error_In; exact EN).
    assert (GF : good_frame M f) by (apply JT; eapply nth_error_In; exact EN).
    assert (THR : forall x, match x with Some g => good_frame M g | None => True end -> forall g, In (Some g) (put i x (threads s)) -> good_frame M g).
    { intros x H1 g H. apply put_In in H. destruct H as [H|H]; [subst; exact H1|auto]. }
    assert (P : forall x, nsum (map enq (put i x (threads s))) + enq (Some f) = nsum (map enq (threads s)) + enq x) by (intros x; exact (nsum_put i x _ _ EN)).
    assert (PL : forall x, lenN (put i x (threads s)) = n) by (intros x; rewrite (put_len _ _ _ _ EN); exact JL).
    cases f; try contradiction TS; cbn [exec] in E; cbn [good_frame] in GF.
    + destruct GF as (-> & GF). cbn [orb] in E. rewrite BO in E. destruct (N.ltb_spec (total (sb s)) (send_limit c)); inversion E; subst; clear E.
      * constructor; red_s; auto.
        -- apply THR. exact GF.
        -- pose proof (enq_count (put i (Some (FEnq it p)) (threads s))) as C1. rewrite PL in C1. pose proof (enq_calls (strand s)) as C2. nia.
      * constructor; red_s; auto.
        -- apply THR. exact I.
        -- specialize (P None). cbn [enq] in P. replace (nsum (map enq (put i None (threads s)))) with (nsum (map enq (threads s))) by lia. exact JB.
    + inversion E; subst; clear E. constructor; red_s; auto.
      * apply THR. exact I.
      * specialize (P (Some FReady)). cbn [enq] in P. destruct p; rewrite total_app; nia.
    + inversion E; subst; clear E. constructor; red_s; auto.
      * apply THR. destruct (ready s); exact I.
      * specialize (P (if ready s then Some FLoad else None)). cbn [enq] in P.
        replace (nsum (map enq (put i (if ready s then Some FLoad else None) (threads s)))) with (nsum (map enq (threads s))) by (destruct (ready s); cbn [enq] in P; lia). exact JB.
    + specialize (P None). cbn [enq] in P.
      destruct (flag s); inversion E; subst; clear E; (constructor; red_s; auto; [apply THR; exact I|]);
        (replace (nsum (map enq (put i None (threads s)))) with (nsum (map enq (threads s))) by lia; exact JB).
  - destruct (strand s) as [|f st] eqn:ES; [discriminate|].
    assert (E' : (let '(s1, nxt, l) := exec c true s f in Some (set_strand s1 (push nxt st), l)) = Some (s1, l) /\ f <> FUser)
      by (destruct f; try discriminate E; (split; [exact E|congruence])).
    clear E. destruct E' as (E & NU). destruct (exec c true s f) as [[s0 nxt] l0] eqn:EX. inversion E; subst. clear E.
    pose proof (shape_top _ _ _ _ _ NU IS) as SH.
    assert (SC : nsum (map calls st) = 0 /\ nsum (map (fun f => enq (Some f)) st) = 0).
    { destruct SH as [(_ & _ & [->| ->])|[(_ & _ & _ & [->| ->] & _)|(_ & _ & _ & [->| ->])]]; split; reflexivity. }
    destruct SC as (SC1 & SC2).
    assert (GF : good_frame M f) by (apply JS; left; reflexivity).
    cbn [map] in JO, JB. change (nsum (calls f :: map calls st)) with (calls f + nsum (map calls st)) in JO.
    change (nsum (enq (Some f) :: map (fun f => enq (Some f)) st)) with (enq (Some f) + nsum (map (fun f => enq (Some f)) st)) in JB.
    rewrite SC1 in JO. rewrite SC2 in JB.
    assert (GEN : threads s0 = threads s /\ match nxt with Some g => good_frame M g /\ calls g <= calls f | None => True end /\
       total (sb s0) + M * (nsum (map enq (threads s)) + enq nxt) <= send_limit c - 1 + M * (lenN (threads s) + K)).
    { cases f; cbn [exec] in EX; try congruence.
      - cbn [good_frame] in GF. destruct GF as (-> & GF). cbn [orb] in EX. rewrite BO in EX. destruct (N.ltb_spec (total (sb s)) (send_limit c)); inversion EX; subst.
        + split; [reflexivity|]. split; [split; [exact GF|cbn [calls]; lia]|]. cbn [enq]. cbn [calls] in JO.
          pose proof (enq_count (threads s0)). nia.
        + split; [reflexivity|]. split; [exact I|]. cbn [enq] in *. lia.
      - inversion EX; subst. red_s. split; [reflexivity|]. split; [split; [exact I|cbn [calls]; lia]|]. cbn [enq] in *. cbn [good_frame] in GF.
        destruct p; rewrite total_app; nia.
      - inversion EX; subst. split; [reflexivity|]. destruct (ready s0); cbn [enq good_frame calls] in *; (split; [split; [exact I|lia] || exact I|lia]).
      - destruct (flag s); inversion EX; subst; (split; [reflexivity|]); cbn [enq good_frame calls] in *; (split; [split; [exact I|lia] || exact I|lia]).
      - destruct (negb b && flag s); inversion EX; subst; (split; [reflexivity|]); red_s; cbn [enq good_frame calls] in *; (split; [split; [exact I|lia] || exact I|lia]).
      - destruct (q_out_bytes _ _ _) as [out q] eqn:EQ. inversion EX; subst. apply out_split in EQ. destruct EQ as (EQ & NE).
        red_s. split; [reflexivity|]. split; [split; [exact I|cbn [calls]; lia]|]. cbn [enq] in *. rewrite <- EQ, total_app in JB. nia.
      - destruct (smsgs s); inversion EX; subst; (split; [reflexivity|]); red_s; cbn [enq good_frame calls] in *; (split; [split; [exact I|lia] || exact I|lia]).
      - inversion EX; subst; (split; [reflexivity|]); red_s; cbn [enq good_frame calls] in *; (split; [split; [exact I|lia] || exact I|lia]).
      - inversion EX; subst; (split; [reflexivity|]); destruct (sb s0); cbn [enq good_frame calls] in *; (split; [split; [exact I|lia] || exact I|lia]).
      - inversion EX; subst; (split; [reflexivity|]); red_s; cbn [enq good_frame calls] in *; (split; [split; [exact I|lia] || exact I|lia]).
      - inversion EX; subst; (split; [reflexivity|]); red_s; cbn [enq good_frame calls] in *; (split; [split; [exact I|lia] || exact I|lia]).
      - inversion EX; subst; (split; [reflexivity|]); red_s; cbn [enq good_frame calls] in *; (split; [split; [exact I|lia] || exact I|lia]). }
    destruct GEN as (ET & GN & GS). constructor; red_s; rewrite ?ET; auto.
    + intros g H. destruct nxt as [x|]; cbn [push] in H; [destruct H as [<-|H]; [tauto|]|]; apply JS; right; exact H.
    + destruct nxt as [x|]; cbn [push map]; [|lia]. change (nsum (calls x :: map calls st)) with (calls x + nsum (map calls st)). lia.
    + destruct nxt as [x|]; cbn [push map].
      * change (nsum (enq (Some x) :: map (fun f => enq (Some f)) st)) with (enq (Some x) + nsum (map (fun f => enq (Some f)) st)). rewrite SC2. rewrite N.add_0_r. exact GS.
      * rewrite SC2. cbn [enq] in GS. exact GS.
  - destruct (strand s) as [|f st] eqn:ES; [|discriminate]. destruct (posted s) as [|m] eqn:EP; [discriminate|]. inversion E; subst; clear E.
    constructor; red_s; auto. intros f [<-|[]]. exact I.
  - destruct (strand s) as [|f st] eqn:ES; [|discriminate]. inversion E; subst; clear E. constructor; red_s; auto. intros f [<-|[]]. exact I.
  - destruct (strand s) as [|f st] eqn:ES; [discriminate|]. destruct f; try discriminate. inversion E; subst; clear E.
    constructor; red_s; auto.
    + intros f [<-|H]; [exact HP|auto].
    + rewrite (HC eq_refl). apply shape_user in IS. destruct IS as [(_ & ->)|(_ & _ & [->| ->])]; cbn [map calls nsum fold_right]; lia.
  - destruct (strand s) as [|f st] eqn:ES; [discriminate|]. destruct f; try discriminate. inversion E; subst; clear E.
    constructor; red_s; auto. intros f H. apply JS. right. exact H.
  - destruct (strand s) as [|f st] eqn:ES; [|discriminate]. destruct (nth_error (writes s) k) as [w|] eqn:EN; [|discriminate]. inversion E; subst; clear E.
    constructor; red_s; auto.
    + intros f [<-|[<-|[]]]; [exact I|destruct ok; exact I].
    + destruct ok; cbn [map calls nsum fold_right]; lia.
    + destruct ok; exact JB.
  - destruct (nth_error (threads s) i) as [[f|]|] eqn:EN; try discriminate. destruct (strand s) as [|f st] eqn:ES; [|discriminate].
    destruct (writes s) as [|w ws] eqn:EW; [|discriminate]. destruct (posted s) as [|m] eqn:EP; [|discriminate]. inversion E; subst; clear E.
    constructor; red_s; rewrite ?ES; auto.
    + rewrite (put_len _ _ _ _ EN). reflexivity.
    + intros f H. apply put_In in H. destruct H as [H|H]; [inversion H; exact I|auto].
    + pose proof (nsum_put i (Some FReady) _ _ EN) as P. cbn [enq] in P. replace (nsum (map enq (put i (Some FReady) (threads s)))) with (nsum (map enq (threads s))) by lia. exact JB.
  - inversion E; subst; clear E. constructor; red_s; auto.
Qed.

Lemma acts_jinv c M K n : 0 < send_limit c -> K <= 1 -> send_limit c - 1 + M * (n + K) < sc_W c ->
  forall al s tr ls s1, inv tr s -> jinv c M K n s -> Forall (polite M) al -> (existsb in_callback al = true -> K = 1) ->
  acts c s al = Some (ls, s1) -> jinv c M K n s1.
Proof.
  intros HL HK HW. induction al as [|a al IH]; intros s tr ls s1 I J F HC E; cbn [acts existsb] in *.
  - inversion E; subst. exact J.
  - inversion F as [|? ? F1 F2]; subst. destruct (act c s a) as [[s0 l]|] eqn:EA; [|discriminate]. destruct (acts c s0 al) as [[ls0 s2]|] eqn:EL; [|discriminate].
    inversion E; subst. pose proof (act_inv c s a tr s0 l I EA) as I1.
    assert (H1 : in_callback a = true -> K = 1) by (intros H; apply HC; rewrite H; reflexivity).
    assert (H2 : existsb in_callback al = true -> K = 1) by (intros H; apply HC; rewrite H; apply orb_true_r).
    pose proof (act_jinv c M K n s a tr s0 l I J HL HK HW F1 H1 EA) as J1. exact (IH _ _ _ _ I1 J1 F2 H2 EL).
Qed.

Lemma limit_bound c n al ls s M :
  0 < send_limit c -> Forall (polite M) al -> send_limit c - 1 + M * senders n al < sc_W c ->
  acts c (send_init n) al = Some (ls, s) -> total (sb s) <= send_limit c - 1 + M * senders n al.
Proof.
  intros HL HP HW E. unfold senders in *. set (K := if existsb in_callback al then 1 else 0) in *.
  assert (HK : K <= 1) by (subst K; destruct (existsb _ _); lia).
  assert (HC : existsb in_callback al = true -> K = 1) by (intros H; subst K; rewrite H; reflexivity).
  assert (J0 : jinv c M K (N.of_nat n) (send_init n)).
  { constructor; cbn [send_init threads strand sb].
    - unfold lenN. rewrite repeat_length. reflexivity.
    - intros f H. apply repeat_spec in H. discriminate.
    - intros f [].
    - cbn [map nsum fold_right]. lia.
    - assert (Z : nsum (map enq (repeat None n)) = 0) by (clear; induction n; [reflexivity|cbn [repeat map]; change (enq None + nsum (map enq (repeat None n)) = 0); rewrite IHn; reflexivity]).
      rewrite Z. cbn [total map nsum fold_right]. lia. }
  pose proof (acts_jinv c M K (N.of_nat n) HL HK HW al _ _ _ _ (inv_init n) J0 HP HC E) as [_ _ _ _ JB]. nia.
Qed.

(** * Where the messages are *)
Definition flow (l : label) (before after : list item) : Prop :=
  match l with
  | LEnq p it => if p then True else after = before ++ it
  | LWrite w => w ++ after = before
  | _ => after = before
  end.
Lemma act_flow c s a tr s1 l : inv tr s -> act c s a = Some (s1, l) ->
  flow l (mid s ++ sb s) (mid s1 ++ sb s1) /\
  match l with LEnq true it => mid s1 = mid s /\ sb s1 = it ++ sb s | _ => True end.
Proof.
  intros IV E. pose proof IV as [_ IS _ _ _ _ _]. destruct a as [i it p ovf|i| | | |it p ovf| |k ok|i|]; cbn [act] in E.
  - destruct (nth_error (threads s) i) as [[f|]|] eqn:EN; try discriminate. inversion E; subst. split; [reflexivity|exact I].
  - destruct (nth_error (threads s) i) as [[f|]|] eqn:EN; try discriminate.
    assert (TS : tsender f) by (destruct IV as [IT _ _ _ _ _ _]; apply IT; eapply nth_error_In; exact EN).
    cases f; try contradiction TS; cbn [exec] in E.
    + destruct (ovf || _); inversion E; subst; (split; [reflexivity|exact I]).
    + inversion E; subst. destruct p; (split; [|try exact I]); cbn [flow]; try exact I; unfold mid; red_s.
      * split; reflexivity.
      * apply app_assoc.
    + inversion E; subst. split; [reflexivity|exact I].
    + destruct (flag s); inversion E; subst; (split; [reflexivity|exact I]).
  - destruct (strand s) as [|f st] eqn:ES; [discriminate|].
    assert (E' : (let '(s1, nxt, l) := exec c true s f in Some (set_strand s1 (push nxt st), l)) = Some (s1, l) /\ f <> FUser)
      by (destruct f; try discriminate E; (split; [exact E|congruence])).
    clear E. destruct E' as (E & NU). destruct (exec c true s f) as [[s0 nxt] l0] eqn:EX. inversion E; subst. clear E.
    pose proof (shape_top _ _ _ _ _ NU IS) as SH.
    assert (MS : mid s = match f with FBuild => smsgs s | _ => [] end) by (unfold mid; rewrite ES; reflexivity).
    assert (NB : forall x, strand x = st -> mid x = []).
    { intros x Hx. unfold mid. rewrite Hx. destruct SH as [(_ & _ & [->| ->])|[(_ & _ & _ & [->| ->] & _)|(_ & _ & _ & [->| ->])]]; reflexivity. }
    cases f; cbn [exec] in EX; try congruence; rewrite MS.
    + destruct (ovf || _); inversion EX; subst; (split; [|exact I]); cbn [flow].
      * reflexivity.
      * rewrite NB by reflexivity. reflexivity.
    + inversion EX; subst. destruct p; (split; [|try exact I]); cbn [flow]; try exact I; unfold mid; red_s; [split|]; reflexivity.
    + inversion EX; subst. split; [|exact I]. cbn [flow]. destruct (ready s0); [reflexivity|]. rewrite NB by reflexivity. reflexivity.
    + destruct (flag s); inversion EX; subst; (split; [|exact I]); cbn [flow]; [rewrite NB by reflexivity|]; reflexivity.
    + destruct (negb b && flag s); inversion EX; subst; (split; [|exact I]); cbn [flow]; [rewrite NB by reflexivity|]; reflexivity.
    + destruct (q_out_bytes _ _ _) as [out q] eqn:EQ. inversion EX; subst. apply out_split in EQ. destruct EQ as (EQ & _).
      destruct SH as [(_ & [] & _)|[(EF & EW & O & U & [[]|F])|(_ & _ & [] & _)]]. split; [|exact I]. cbn [flow]. unfold mid. red_s. rewrite F. exact EQ.
    + destruct (smsgs s) as [|m ms] eqn:EM; inversion EX; subst; (split; [|exact I]); cbn [flow].
      * reflexivity.
      * rewrite NB by reflexivity. reflexivity.
    + inversion EX; subst. split; [|exact I]. reflexivity.
    + inversion EX; subst. split; [|exact I]. cbn [flow]. red_s. destruct (sb s0) eqn:EB; cbn [push]; [rewrite NB by reflexivity|]; reflexivity.
    + inversion EX; subst. split; [|exact I]. reflexivity.
    + inversion EX; subst. split; [|exact I]. reflexivity.
    + inversion EX; subst. split; [|exact I]. cbn [flow]. rewrite NB by reflexivity. reflexivity.
  - destruct (strand s) as [|f st] eqn:ES; [|discriminate]. destruct (posted s) as [|m] eqn:EP; [discriminate|]. inversion E; subst; clear E.
    split; [|exact I]. unfold mid. rewrite ES. reflexivity.
  - destruct (strand s) as [|f st] eqn:ES; [|discriminate]. inversion E; subst; clear E. split; [|exact I]. unfold mid. rewrite ES. reflexivity.
  - destruct (strand s) as [|f st] eqn:ES; [discriminate|]. destruct f; try discriminate. inversion E; subst; clear E. split; [|exact I]. unfold mid. rewrite ES. reflexivity.
  - destruct (strand s) as [|f st] eqn:ES; [discriminate|]. destruct f; try discriminate. inversion E; subst; clear E. split; [|exact I]. unfold mid. rewrite ES. red_s.
    apply shape_user in IS. destruct IS as [(_ & ->)|(_ & _ & [->| ->])]; reflexivity.
  - destruct (strand s) as [|f st] eqn:ES; [|discriminate]. destruct (nth_error (writes s) k) as [w|] eqn:EN; [|discriminate]. inversion E; subst; clear E.
    unfold mid. rewrite ES. destruct ok; (split; [reflexivity|exact I]).
  - destruct (nth_error (threads s) i) as [[f|]|] eqn:EN; try discriminate. destruct (strand s) as [|f st] eqn:ES; [|discriminate].
    destruct (writes s) as [|w ws] eqn:EW; [|discriminate]. destruct (posted s) as [|m] eqn:EP; [|discriminate]. inversion E; subst; clear E.
    unfold mid. red_s. rewrite ES. split; [reflexivity|exact I].
  - inversion E; subst. split; [reflexivity|exact I].
Qed.

From Coq Require Import Permutation.
Lemma acts_flow c : forall al s tr ls s1, inv tr s -> acts c s al = Some (ls, s1) ->
  (no_prior ls -> handed ls ++ mid s1 ++ sb s1 = mid s ++ sb s ++ queued ls) /\
  Permutation (handed ls ++ mid s1 ++ sb s1) (mid s ++ sb s ++ queued ls).
Proof.
  induction al as [|a al IH]; intros s tr ls s1 IV E; cbn [acts] in E.
  - inversion E; subst. cbn [handed queued app]. rewrite app_nil_r. auto.
  - destruct (act c s a) as [[s0 l]|] eqn:EA; [|discriminate]. destruct (acts c s0 al) as [[ls0 s2]|] eqn:EL; [|discriminate].
    inversion E; subst. clear E. pose proof (act_inv c s a tr s0 l IV EA) as I1. destruct (IH _ _ _ _ I1 EL) as (H1 & H2).
    pose proof (act_flow c s a tr s0 l IV EA) as (F & FP).
    assert (FF : match l with LEnq _ _ => True | _ => True end) by (destruct l; exact I).
    destruct l as [[|] it| |w|w|w| | |]; cbn [handed queued no_prior flow] in *.
    + split; [tauto|]. rewrite H2. destruct FP as (FP1 & FP2). rewrite FP1, FP2. rewrite <- !app_assoc. apply Permutation_app_head.
      rewrite Permutation_app_comm, <- app_assoc. apply Permutation_app_head. apply Permutation_app_comm.
    + assert (EQ : mid s0 ++ sb s0 ++ queued ls0 = mid s ++ sb s ++ it ++ queued ls0) by (rewrite (app_assoc (mid s0)), F; rewrite <- !app_assoc; reflexivity).
      rewrite <- EQ. auto.
    + assert (EQ : mid s0 ++ sb s0 ++ queued ls0 = mid s ++ sb s ++ queued ls0) by (rewrite (app_assoc (mid s0)), F; rewrite <- !app_assoc; reflexivity).
      rewrite <- EQ. auto.
    + assert (EQ : w ++ mid s0 ++ sb s0 ++ queued ls0 = mid s ++ sb s ++ queued ls0) by (rewrite (app_assoc (mid s0)), (app_assoc w), F; rewrite <- !app_assoc; reflexivity).
      rewrite <- EQ, <- !app_assoc. split; [intros NP; rewrite H1 by exact NP; reflexivity|apply Permutation_app_head; exact H2].
    + assert (EQ : mid s0 ++ sb s0 ++ queued ls0 = mid s ++ sb s ++ queued ls0) by (rewrite (app_assoc (mid s0)), F; rewrite <- !app_assoc; reflexivity).
      rewrite <- EQ. auto.
    + assert (EQ : mid s0 ++ sb s0 ++ queued ls0 = mid s ++ sb s ++ queued ls0) by (rewrite (app_assoc (mid s0)), F; rewrite <- !app_assoc; reflexivity).
      rewrite <- EQ. auto.
    + assert (EQ : mid s0 ++ sb s0 ++ queued ls0 = mid s ++ sb s ++ queued ls0) by (rewrite (app_assoc (mid s0)), F; rewrite <- !app_assoc; reflexivity).
      rewrite <- EQ. auto.
    + assert (EQ : mid s0 ++ sb s0 ++ queued ls0 = mid s ++ sb s ++ queued ls0) by (rewrite (app_assoc (mid s0)), F; rewrite <- !app_assoc; reflexivity).
      rewrite <- EQ. auto.
    + assert (EQ : mid s0 ++ sb s0 ++ queued ls0 = mid s ++ sb s ++ queued ls0) by (rewrite (app_assoc (mid s0)), F; rewrite <- !app_assoc; reflexivity).
      rewrite <- EQ. auto.
Qed.
