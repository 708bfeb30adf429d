(** Generic facts about the receive loop: if every single read refines a greedy splitter,
    every run does, whatever the chunking. *)
From Coq Require Import Arith List NArith Bool Lia ZifyBool ZifyNat ZifyN.
From Verif Require Import M_Bytes M_Rx L_Bytes.
Import ListNotations.
Open Scope N_scope.

Lemma all_msgs_app a b : all_msgs (a ++ b) = all_msgs a ++ all_msgs b.
Proof. unfold all_msgs. rewrite map_app, concat_app. reflexivity. Qed.
Lemma any_err_app a b : any_err (a ++ b) = any_err a || any_err b.
Proof. apply existsb_app. Qed.

Lemma run_app {S} awf (u : unpk S) : forall ds1 st ds2,
  run awf u st (ds1 ++ ds2) =
  match run awf u st ds1 with
  | None => None
  | Some (st1, o1) => match run awf u st1 ds2 with
                      | None => None
                      | Some (st2, o2) => Some (st2, o1 ++ o2)
                      end
  end.
Proof.
  induction ds1 as [|d ds1 IH]; intros st ds2; cbn [run app].
  - destruct (run awf u st ds2) as [[? ?]|]; reflexivity.
  - destruct (feed awf u st d) as [[st1 o1]|]; [|reflexivity].
    rewrite IH. destruct (run awf u st1 ds1) as [[st2 o2]|]; [|reflexivity].
    destruct (run awf u st2 ds2) as [[st3 o3]|]; [|reflexivity]. rewrite app_assoc. reflexivity.
Qed.

Section Refine.
  Context {S : Type} (awf : bool) (u : unpk S).
  Context (split : list byte -> list (list byte) * list byte * bool).
  Context (I : rxst S -> list byte -> Prop).
  Hypothesis H_app : forall a b ms r e, split a = (ms, r, e) ->
    split (a ++ b) = if e then (ms, r ++ b, true) else let '(ms', r', e') := split (r ++ b) in (ms ++ ms', r', e').
  Hypothesis H_none : forall st p, I st p -> split p = ([], p, false).
  Hypothesis H_feed : forall st p d st' o ms r e, I st p -> feed awf u st d = Some (st', o) ->
    split (p ++ d) = (ms, r, e) -> all_msgs o = ms /\ any_err o = e /\ I st' (if e then [] else r).

  Lemma run_ok : forall ds st p st' o ms r, I st p -> run awf u st ds = Some (st', o) ->
    split (p ++ concat ds) = (ms, r, false) -> all_msgs o = ms /\ any_err o = false /\ I st' r.
  Proof.
    induction ds as [|d ds IH]; intros st p st' o ms r HI HR HS; cbn [run concat] in *.
    - inversion HR; subst. rewrite app_nil_r in HS. rewrite (H_none _ _ HI) in HS. inversion HS; subst.
      repeat split; auto.
    - destruct (feed awf u st d) as [[st1 o1]|] eqn:EF; [|discriminate].
      destruct (run awf u st1 ds) as [[st2 o2]|] eqn:ER; [|discriminate]. inversion HR; subst.
      destruct (split (p ++ d)) as [[ms1 r1] e1] eqn:ES.
      rewrite app_assoc in HS. rewrite (H_app _ _ _ _ _ ES) in HS.
      destruct e1; [discriminate|].
      destruct (H_feed _ _ _ _ _ _ _ _ HI EF ES) as (Hm & He & HI1).
      destruct (split (r1 ++ concat ds)) as [[ms2 r2] e2] eqn:ES2. inversion HS; subst.
      destruct (IH _ _ _ _ _ _ HI1 ER ES2) as (Hm2 & He2 & HI2).
      rewrite all_msgs_app, any_err_app, Hm2, He, He2. auto.
  Qed.

  Lemma run_err : forall ds d st p st' o ms r ms0 r0, I st p ->
    run awf u st (ds ++ [d]) = Some (st', o) ->
    split (p ++ concat ds) = (ms0, r0, false) ->
    split (p ++ concat ds ++ d) = (ms, r, true) ->
    all_msgs o = ms /\ any_err o = true /\ I st' [].
  Proof.
    intros ds d st p st' o ms r ms0 r0 HI HR HS0 HS.
    rewrite run_app in HR. destruct (run awf u st ds) as [[st1 o1]|] eqn:ER; [|discriminate].
    destruct (run_ok _ _ _ _ _ _ _ HI ER HS0) as (Hm & He & HI1).
    cbn [run] in HR. destruct (feed awf u st1 d) as [[st2 o2]|] eqn:EF; [|discriminate]. inversion HR; subst.
    rewrite app_nil_r. rewrite app_assoc in HS. rewrite (H_app _ _ _ _ _ HS0) in HS.
    destruct (split (r0 ++ d)) as [[ms2 r2] e2] eqn:ES2. inversion HS; subst.
    destruct (H_feed _ _ _ _ _ _ _ _ HI1 EF ES2) as (Hm2 & He2 & HI2).
    rewrite all_msgs_app, any_err_app, He, He2, Hm2. auto.
  Qed.
End Refine.

(** The invariant survives every run, also on malformed streams. *)
Section Keep.
  Context {S : Type} (awf : bool) (u : unpk S).
  Context (I : rxst S -> Prop).
  Hypothesis H_feed : forall st d st' o, I st -> feed awf u st d = Some (st', o) -> I st'.
  Lemma run_keep : forall ds st st' o, I st -> run awf u st ds = Some (st', o) -> I st'.
  Proof.
    induction ds as [|d ds IH]; intros st st' o HI HR; cbn [run] in HR.
    - inversion HR; subst; assumption.
    - destruct (feed awf u st d) as [[st1 o1]|] eqn:EF; [|discriminate].
      destruct (run awf u st1 ds) as [[st2 o2]|] eqn:ER; [|discriminate]. inversion HR; subst.
      eapply IH; [eapply H_feed; eassumption|eassumption].
  Qed.
End Keep.

(** Refinement restricted to streams whose pending part always satisfies [P]. *)
Section Refine2.
  Context {S : Type} (awf : bool) (u : unpk S).
  Context (split : list byte -> list (list byte) * list byte * bool).
  Context (dl : list (list byte) -> list (list byte)).
  Context (I : rxst S -> list byte -> Prop) (P : list byte -> Prop).
  Hypothesis H_dl : forall a b, dl (a ++ b) = dl a ++ dl b.
  Hypothesis H_dl0 : dl [] = [].
  Hypothesis H_app : forall a b ms r e, split a = (ms, r, e) ->
    split (a ++ b) = if e then (ms, r ++ b, true) else let '(ms', r', e') := split (r ++ b) in (ms ++ ms', r', e').
  Hypothesis H_none : forall st p, I st p -> split p = ([], p, false).
  Hypothesis H_feed : forall st p d st' o ms r, I st p -> feed awf u st d = Some (st', o) ->
    split (p ++ d) = (ms, r, false) -> P r -> all_msgs o = dl ms /\ any_err o = false /\ I st' r.

  Lemma run_ok2 : forall ds st p st' o ms r, I st p -> run awf u st ds = Some (st', o) ->
    (forall ds1 ds2, ds = ds1 ++ ds2 -> exists ms0 r0, split (p ++ concat ds1) = (ms0, r0, false) /\ P r0) ->
    split (p ++ concat ds) = (ms, r, false) -> all_msgs o = dl ms /\ any_err o = false /\ I st' r.
  Proof.
    induction ds as [|d ds IH]; intros st p st' o ms r HI HR HG HS; cbn [run concat] in *.
    - inversion HR; subst. rewrite app_nil_r in HS. rewrite (H_none _ _ HI) in HS. inversion HS; subst.
      repeat split; auto.
    - destruct (feed awf u st d) as [[st1 o1]|] eqn:EF; [|discriminate].
      destruct (run awf u st1 ds) as [[st2 o2]|] eqn:ER; [|discriminate]. inversion HR; subst.
      destruct (HG [d] ds eq_refl) as (ms1 & r1 & ES & HP). cbn [concat] in ES. rewrite app_nil_r in ES.
      rewrite app_assoc in HS. rewrite (H_app _ _ _ _ _ ES) in HS.
      destruct (H_feed _ _ _ _ _ _ _ HI EF ES HP) as (Hm & He & HI1).
      destruct (split (r1 ++ concat ds)) as [[ms2 r2] e2] eqn:ES2. inversion HS; subst.
      assert (HG2 : forall ds1 ds2, ds = ds1 ++ ds2 -> exists ms0 r0, split (r1 ++ concat ds1) = (ms0, r0, false) /\ P r0).
      { intros ds1 ds2 ->. destruct (HG (d :: ds1) ds2 eq_refl) as (ms0 & r0 & ES0 & HP0).
        cbn [concat] in ES0. rewrite app_assoc in ES0. rewrite (H_app _ _ _ _ _ ES) in ES0.
        destruct (split (r1 ++ concat ds1)) as [[ms3 r3] e3] eqn:ES3. inversion ES0; subst.
        exists ms3, r0. auto. }
      destruct (IH _ _ _ _ _ _ HI1 ER HG2 ES2) as (Hm2 & He2 & HI2).
      rewrite all_msgs_app, any_err_app, Hm, Hm2, He, He2, H_dl. auto.
  Qed.
End Refine2.
