(** C97: every message is handled at most once and none is lost, in every configuration. C98: messages are handled in order, unless
    on_msg handles a part of them. C99: messages are offered again until they are handled. C100: the fill level of the receive buffer
    is right. C101: with passive receiving every read gives the application a chance to ask for the next one. *)
From Coq Require Import List NArith Bool Arith Lia Permutation ZifyBool ZifyNat ZifyN.
From Verif Require Import M_Handle S_Handle.
Import ListNotations.

Ltac pj := cbn [h_buf h_bytes h_held h_disp h_posted h_timer h_d h_i set_i set_d set_buf set_held set_disp set_posted set_timer] in *.
(** all ways a step can be taken *)
Ltac cases D :=
  unfold step in D;
  repeat (match type of D with
          | context [match ?x with _ => _ end] => destruct x eqn:?
          end; try discriminate D);
  try (injection D as <- <-); pj.

Lemma received_app : forall a b, received (a ++ b) = received a ++ received b.
Proof. induction a as [|[ms|m|ms|ms|ms] a IH]; intro b; cbn; rewrite ?IH, ?app_assoc; auto. Qed.
Lemma handled_app : forall a b, handled (a ++ b) = handled a ++ handled b.
Proof. induction a as [|[ms|m|ms|ms|ms] a IH]; intro b; cbn; rewrite ?IH, ?app_assoc; auto. Qed.
Lemma is_nil_true : forall l, is_nil l = true -> l = [].
Proof. destruct l; [reflexivity | discriminate]. Qed.
Definition msg_dec : forall a b : msg, {a = b} + {a <> b}.
Proof. decide equality; [apply N.eq_dec | apply Nat.eq_dec]. Defined.

(** an invariant of all states along a run *)
Lemma run_inv : forall c (P : hst -> list ev -> Prop),
  (forall s t a s' e, P s t -> step c s a = Some (s', e) -> P s' (t ++ e)) ->
  forall l s t s' e, P s t -> run c s l = Some (s', e) -> P s' (t ++ e).
Proof.
  intros c P St l. induction l as [|a l IH]; intros s t s' e J R; cbn [run] in R; [injection R as <- <-; rewrite app_nil_r; exact J|].
  destruct (step c s a) as [[s1 e1]|] eqn:E; [|discriminate]. destruct (run c s1 l) as [[s2 e2]|] eqn:E2; [|discriminate]. injection R as <- <-.
  rewrite app_assoc. eapply IH; [eapply St; eauto | exact E2].
Qed.

(** the dispatch strand *)
Definition some (o : option msg) : bool := match o with Some _ => true | None => false end.
Definition W (c : cfg) (s : hst) : Prop :=
  (h_d s = DIdle -> h_disp s = true -> h_timer s = true \/ h_posted s > 0) /\
  (held s ++ h_buf s <> [] -> h_disp s = true \/ h_posted s > 0 \/ h_d s <> DIdle \/ h_i s = ITest \/ h_i s = IPost) /\
  (batch c = true -> h_held s = None) /\
  match h_d s with
  | DIdle => batch c = false -> some (h_held s) = h_disp s
  | DTaken => batch c = false -> some (h_held s) = true
  | DIn | DSet => h_disp s = true /\ (batch c = false -> some (h_held s) = true)
  | DClear => h_disp s = true /\ h_held s = None
  | DRepost => h_disp s = false /\ h_held s = None
  end.
Lemma W_0 : forall c, W c handle0.
Proof. intro c. unfold W, held. cbn. repeat split; auto; intros; try discriminate. Qed.
Lemma W_step : forall c s a s' e, W c s -> step c s a = Some (s', e) -> W c s'.
Proof.
  intros c s a s' e (A & B & C & D0) D. unfold W, held in *.
  cases D; repeat match goal with H : h_d s = _ |- _ => rewrite H in * | H : h_disp s = _ |- _ => rewrite H in * | H : h_i s = _ |- _ => rewrite H in * | H : h_posted s = _ |- _ => rewrite H in * end; pj.
  all: repeat match goal with H : is_nil _ = true |- _ => apply is_nil_true in H; rewrite ?H in * | H : batch _ = _ |- _ => rewrite H in * | H : _ /\ _ |- _ => destruct H end.
  all: split; [|split; [|split]].
  all: try assumption.
  all: try (intros; solve [auto | discriminate | right; lia | right; left; lia | right; right; left; discriminate | congruence | auto 6]).
  all: try match goal with B : _ -> _ \/ _ |- _ -> _ \/ _ => intro N; destruct (B N) as [?|[?|[?|[?|?]]]]; solve [auto | discriminate] end.
  - intro N. rewrite C in N by reflexivity. contradiction N; reflexivity.
  - intro N. specialize (D0 eq_refl). destruct (h_held s); [discriminate|]. match goal with H : h_buf s = [] |- _ => rewrite H in N end. contradiction N; reflexivity.
  - intro N. transitivity true; auto.
  - intro N. match goal with H : h_held s = None |- _ => rewrite H end. auto.
Qed.
Lemma W_run : forall c l s t, run c handle0 l = Some (s, t) -> W c s.
Proof. intros c l s t R. exact (run_inv c (fun s _ => W c s) (fun s t a s' e J D => W_step c s a s' e J D) l handle0 [] s t (W_0 c) R). Qed.

(** ** C97 *)
Definition cnt (m : msg) (l : list msg) : nat := count_occ msg_dec l m.
Lemma cnt_app : forall m a b, cnt m (a ++ b) = cnt m a + cnt m b.
Proof. intros. apply count_occ_app. Qed.
Lemma cnt_nil : forall m, cnt m [] = 0.
Proof. reflexivity. Qed.
Lemma cnt_cons : forall m x l, cnt m (x :: l) = cnt m [x] + cnt m l.
Proof. intros. exact (cnt_app m [x] l). Qed.
Lemma cnt_split : forall m k l, cnt m l = cnt m (firstn k l) + cnt m (skipn k l).
Proof. intros. rewrite <- cnt_app, firstn_skipn. reflexivity. Qed.
Lemma skip_all : forall k (l : list msg), is_nil (skipn k l) = true -> skipn k l = [].
Proof. intros. apply is_nil_true. assumption. Qed.
Definition I97 (c : cfg) (s : hst) (t : list ev) : Prop := W c s /\ forall m, cnt m (received t) = cnt m (handled t) + cnt m (pending s).
Lemma I97_step : forall c s t a s' e, I97 c s t -> step c s a = Some (s', e) -> I97 c s' (t ++ e).
Proof.
  intros c s t a s' e [w J] D. split; [eapply W_step; eauto|]. intro m. specialize (J m). destruct w as (_ & _ & Wb & Wd). rewrite received_app, handled_app, !cnt_app. unfold pending, held in *.
  cases D; cbn [received handled app]; rewrite ?cnt_app, ?app_nil_r, ?cnt_nil in *; cbn iota.
  all: repeat match goal with H : h_d _ = _ |- _ => rewrite H in * | H : h_i _ = _ |- _ => rewrite H in * end.
  all: repeat match goal with H : is_nil _ && _ = true |- _ => apply andb_true_iff in H as [H _] | H : is_nil _ = true |- _ => apply is_nil_true in H; rewrite ?H in * end.
  all: rewrite ?cnt_nil in *; try lia.
  all: try match goal with |- context [firstn ?k ?l] => pose proof (cnt_split m k l); repeat match goal with H : skipn _ _ = [] |- _ => rewrite H, cnt_nil in * end; lia end.
  - pose proof (cnt_split m k ms) as Sp. destruct re; match goal with H : is_nil _ = true |- _ => apply is_nil_true in H; rewrite H in * end; [|rewrite firstn_nil in *]; rewrite ?cnt_nil in *; lia.
  - match goal with H : h_buf s = [] |- _ => rewrite H, cnt_nil end. lia.
  - specialize (Wd eq_refl). destruct (h_held s); [cbn in Wd; congruence|]. rewrite (cnt_cons m m0 (l ++ _)), cnt_app. rewrite (cnt_cons m m0 l), cnt_nil in J. lia.
  - unfold held. lia.
Qed.
Lemma I97_run : forall c l s t, run c handle0 l = Some (s, t) -> I97 c s t.
Proof. intros c l s t R. refine (run_inv c (I97 c) (I97_step c) l handle0 [] s t _ R). split; [apply W_0 | reflexivity]. Qed.
(** Whatever is configured, however messages arrive and whatever the application's functions take: each message is either still there or
    was handled once. *)
Theorem C97 : forall c l s t, run c handle0 l = Some (s, t) -> Permutation (received t) (handled t ++ pending s).
Proof. intros c l s t R. apply (Permutation_count_occ msg_dec). intro m. destruct (I97_run _ _ _ _ R) as [_ J]. specialize (J m). unfold cnt in J. rewrite count_occ_app. exact J. Qed.
Print Assumptions C97.
(** ** C98 *)
Definition I98 (c : cfg) (s : hst) (t : list ev) : Prop := W c s /\ received t = handled t ++ pending s.
Ltac nils := repeat match goal with H : is_nil _ && _ = true |- _ => apply andb_true_iff in H as [H _] | H : is_nil _ = true |- _ => apply is_nil_true in H; rewrite ?H in * end.
Lemma one_end : forall k (ms x : list msg), k = 0 \/ (k = length ms /\ x = []) -> x ++ ms = firstn k ms ++ x ++ skipn k ms.
Proof. intros k ms x [ -> |[ -> -> ]]; [reflexivity|]. cbn [app]. symmetry. apply firstn_skipn. Qed.
Lemma I98_step : forall c s t a s' e, I98 c s t ->
  match a, h_i s with HOn k _, IOn ms => k = 0 \/ (k = length ms /\ held s ++ h_buf s = []) | _, _ => True end -> step c s a = Some (s', e) -> I98 c s' (t ++ e).
Proof.
  intros c s t a s' e [w J] K D. split; [eapply W_step; eauto|]. destruct w as (_ & _ & Wb & Wd). rewrite received_app, handled_app, J. unfold pending, held in *.
  rewrite <- !app_assoc. f_equal. clear J.
  cases D; cbn [received handled app]; rewrite ?app_nil_r in *; cbn iota.
  all: repeat match goal with H : h_d _ = _ |- _ => rewrite H in * | H : h_i _ = _ |- _ => rewrite H in * end.
  all: nils; rewrite ?app_nil_r, <- ?app_assoc; try reflexivity.
  - rewrite (app_assoc _ (h_buf s)). rewrite (one_end k ms) by exact K. f_equal. rewrite <- app_assoc. destruct re; nils; rewrite ?skipn_nil, ?app_nil_r; reflexivity.
  - rewrite !(app_assoc _ (h_buf s)). apply one_end. exact K.
  - rewrite !(app_assoc _ (h_buf s)). apply one_end. exact K.
  - match goal with H : h_buf s = [] |- _ => rewrite H end. reflexivity.
  - specialize (Wd eq_refl). destruct (h_held s); [cbn in Wd; congruence | reflexivity].
  - match goal with H : batch c && _ = true |- _ => apply andb_true_iff in H as [Hb _] end. rewrite (Wb Hb). cbn [app]. rewrite app_assoc, firstn_skipn. reflexivity.
Qed.
Lemma I98_none : forall c l s t s' e, I98 c s t -> none_at_once l -> run c s l = Some (s', e) -> I98 c s' (t ++ e).
Proof.
  intros c l. induction l as [|a l IH]; intros s t s' e J N R; cbn [run] in R; [injection R as <- <-; rewrite app_nil_r; exact J|].
  destruct (step c s a) as [[s1 e1]|] eqn:E; [|discriminate]. destruct (run c s1 l) as [[s2 e2]|] eqn:E2; [|discriminate]. injection R as <- <-. rewrite app_assoc.
  apply (IH s1); [|intros k re Hk; apply (N k re); right; exact Hk | exact E2]. eapply I98_step; [exact J | | exact E]. destruct a; auto. destruct (h_i s); auto. left. apply (N k re). left. reflexivity.
Qed.
(** without on_msg *)
Lemma no_on_step : forall c s a s' e, sync c = false -> (forall ms, h_i s <> IOn ms) -> step c s a = Some (s', e) -> forall ms, h_i s' <> IOn ms.
Proof.
  intros c s a s' e S N D ms0. cases D; try congruence; try discriminate; auto.
  all: match goal with |- context [if ?b then _ else _] => destruct b; discriminate end.
Qed.
Lemma I98_plain : forall c l s t s' e, sync c = false -> (forall ms, h_i s <> IOn ms) -> I98 c s t -> run c s l = Some (s', e) -> I98 c s' (t ++ e).
Proof.
  intros c l. induction l as [|a l IH]; intros s t s' e S N J R; cbn [run] in R; [injection R as <- <-; rewrite app_nil_r; exact J|].
  destruct (step c s a) as [[s1 e1]|] eqn:E; [|discriminate]. destruct (run c s1 l) as [[s2 e2]|] eqn:E2; [|discriminate]. injection R as <- <-. rewrite app_assoc.
  apply (IH s1); auto; [eapply no_on_step; eauto|]. eapply I98_step; [exact J | | exact E]. destruct a; auto. destruct (h_i s) eqn:Hi; auto. destruct (N _ eq_refl).
Qed.
(** with on_msg handling everything *)
Definition K98 (s : hst) : Prop := held s ++ h_buf s = [] /\ match h_i s with IMove ms _ => ms = [] | _ => True end.
Lemma K98_step : forall c s a s' e, sync c = true -> K98 s -> match a, h_i s with HOn k _, IOn ms => k = length ms | _, _ => True end -> step c s a = Some (s', e) -> K98 s'.
Proof.
  intros c s a s' e S [K1 K2] K D. unfold K98, held in *. apply app_eq_nil in K1 as [K1 K3]. destruct (h_held s) eqn:Hh; [discriminate|].
  cases D; rewrite ?Hh, ?K3 in *; cbn [app]; try congruence; auto.
  all: repeat match goal with H : h_i _ = _ |- _ => rewrite H in * end; subst; auto.
  - split; [reflexivity | apply skipn_all].
  - split; [reflexivity | apply skipn_all].
  - rewrite skipn_nil. auto.
Qed.
Lemma I98_all : forall c l s t s' e, sync c = true -> K98 s -> all_at_once c s l -> I98 c s t -> run c s l = Some (s', e) -> I98 c s' (t ++ e).
Proof.
  intros c l. induction l as [|a l IH]; intros s t s' e S N A J R; cbn [run] in R; [injection R as <- <-; rewrite app_nil_r; exact J|]. cbn [all_at_once] in A. destruct A as [A1 A2].
  destruct (step c s a) as [[s1 e1]|] eqn:E; [|discriminate]. destruct (run c s1 l) as [[s2 e2]|] eqn:E2; [|discriminate]. injection R as <- <-. rewrite app_assoc.
  apply (IH s1); auto; [eapply K98_step; eauto|]. eapply I98_step; [exact J | | exact E]. destruct a; auto. destruct (h_i s); auto. right. split; [exact A1 | apply N].
Qed.
Lemma I98_0 : forall c, I98 c handle0 [].
Proof. intro c. split; [apply W_0 | reflexivity]. Qed.
(** Without on_msg, whether messages are offered one by one or all together, and with on_msg if it always handles all of its messages or
    never any (as include/config.h:1367-1369 demands): messages are handled in the order they were received, none is skipped. *)
Theorem C98 : forall c l s t, run c handle0 l = Some (s, t) -> sync c = false \/ all_at_once c handle0 l \/ none_at_once l -> received t = handled t ++ pending s.
Proof.
  intros c l s t R H. destruct (sync c) eqn:S.
  - destruct H as [H|[H|H]]; [discriminate | |].
    + eapply (I98_all c l handle0 []); eauto; [split; [reflexivity | exact I] | apply I98_0].
    + eapply (I98_none c l handle0 []); eauto. apply I98_0.
  - eapply (I98_plain c l handle0 []); eauto; [discriminate | apply I98_0].
Qed.
Print Assumptions C98.
(** in batch mode, the application takes some of the messages, then refuses, then takes the rest *)
Definition m1 : msg := (1, 10%N). Definition m2 : msg := (2, 20%N). Definition m3 : msg := (3, 30%N).
Definition ex_batch : list act :=
  [HRecv [m1; m2]; HMove; HTest; HPost; HRun; HMark; HTake 1; HRecv [m3]; HMove; HRet true; HTest; HClear; HRepost; HRun; HMark; HRet false; HSet; HFire; HRun; HMark; HTake 2; HRet true; HClear; HRepost; HRun].
Example C98_ex : exists s t, run (mk_c false true false) handle0 ex_batch = Some (s, t) /\ received t = [m1; m2; m3] /\ handled t = [m1; m2; m3] /\ pending s = [] /\ h_bytes s = 0%N.
Proof. do 2 eexists. split; [vm_compute; reflexivity|]. repeat split. Qed.
Definition ex_all : list act := [HRecv [m1; m2]; HOn 2 true; HRecv [m3]; HOn 1 true].
Example C98_ex_all : exists s t, run (mk_c true false false) handle0 ex_all = Some (s, t) /\ all_at_once (mk_c true false false) handle0 ex_all /\ handled t = [m1; m2; m3].
Proof. do 2 eexists. split; [vm_compute; reflexivity|]. split; [cbn; auto 10 | reflexivity]. Qed.
Definition ex_none : list act := [HRecv [m1; m2]; HOn 0 false; HMove; HTest; HPost; HRun; HMark; HRet true].
Example C98_ex_none : exists s t, run (mk_c true false true) handle0 ex_none = Some (s, t) /\ none_at_once ex_none /\ handled t = [m1] /\ pending s = [m2].
Proof. do 2 eexists. split; [vm_compute; reflexivity|]. split; [|split; reflexivity]. intros k re H. cbn in H. intuition congruence. Qed.
(** as documented, the condition is needed: on_msg that handles a part of its messages is called again before the rest is handled *)
Example C98_sharp : exists s t, run (mk_c true false false) handle0 [HRecv [m1; m2]; HOn 1 true; HMove; HTest; HPost; HRecv [m3]; HOn 1 true; HRun; HMark; HRet true] = Some (s, t) /\
  received t = [m1; m2; m3] /\ handled t = [m1; m3; m2].
Proof. do 2 eexists. split; [vm_compute; reflexivity|]. split; reflexivity. Qed.

(** ** C99 *)
Definition offers (c : cfg) (s : hst) (m : msg) : Prop :=
  exists l' s' t' ms, Forall (fun a => library a = true) l' /\ run c s l' = Some (s', t') /\ In (EOffer (m :: ms)) t'.
Lemma offers_step : forall c s a s' e m, step c s a = Some (s', e) -> library a = true -> offers c s' m -> offers c s m.
Proof.
  intros c s a s' e m D L (l' & s2 & t & ms & F & R & I). exists (a :: l'), s2, (e ++ t), ms. split; [constructor; auto|]. cbn [run]. rewrite D, R. split; [reflexivity | apply in_or_app; right; exact I].
Qed.
Lemma offers_taken : forall c s m w, W c s -> h_d s = DTaken -> held s ++ h_buf s = m :: w -> offers c s m.
Proof.
  intros c s m w (_ & _ & Wb & Wd) Hd E. rewrite Hd in Wd.
  assert (X : exists ms, (if batch c then h_buf s else held s) = m :: ms).
  { unfold held in *. destruct (batch c).
    - rewrite Wb in E by reflexivity. exists w. exact E.
    - specialize (Wd eq_refl). destruct (h_held s); [|discriminate]. injection E as -> _. exists []. reflexivity. }
  destruct X as [ms X]. exists [HMark]. do 2 eexists. exists ms. split; [repeat constructor|]. cbn [run step]. rewrite Hd, X. destruct (h_i s); (split; [reflexivity | left; reflexivity]).
Qed.
Lemma offers_posted : forall c s m w, W c s -> h_d s = DIdle -> h_posted s > 0 -> held s ++ h_buf s = m :: w -> offers c s m.
Proof.
  intros c s m w w0 Hd P E. destruct (h_posted s) as [|p] eqn:Hp; [lia|].
  assert (D : exists s' e, step c s HRun = Some (s', e) /\ h_d s' = DTaken /\ held s' ++ h_buf s' = m :: w).
  { destruct w0 as (_ & _ & Wb & Wd). rewrite Hd in Wd. unfold step. rewrite Hd, Hp. unfold held in *. destruct (batch c).
    - rewrite Wb in * by reflexivity. cbn [app] in E. rewrite E. cbn [is_nil]. destruct (h_i s); do 2 eexists; (split; [reflexivity|]); pj; rewrite Wb, E by reflexivity; auto.
    - specialize (Wd eq_refl). destruct (h_disp s).
      + destruct (h_held s) eqn:Hh; [|discriminate]. destruct (h_i s); do 2 eexists; (split; [reflexivity|]); pj; rewrite Hh; auto.
      + destruct (h_held s) eqn:Hh; [discriminate|]. cbn [app] in E. rewrite E. destruct (h_i s); do 2 eexists; (split; [reflexivity|]); pj; auto. }
  destruct D as (s' & e & D & D1 & D2). eapply offers_step; [exact D | reflexivity |]. eapply offers_taken; eauto. eapply W_step; eauto.
Qed.
Lemma offers_idle : forall c s m w, W c s -> h_d s = DIdle -> h_disp s = true \/ h_posted s > 0 -> held s ++ h_buf s = m :: w -> offers c s m.
Proof.
  intros c s m w w0 Hd P E. destruct (Nat.eq_dec (h_posted s) 0) as [Z|Z]; [|eapply offers_posted; eauto; lia].
  destruct P as [P|P]; [|lia]. destruct (proj1 w0 Hd P) as [T|T]; [|lia].
  assert (D : step c s HFire = Some (set_posted (set_timer s false) (S (h_posted s)), [])) by (unfold step; rewrite T; destruct (h_i s), (h_d s); reflexivity).
  eapply offers_step; [exact D | reflexivity |]. eapply offers_posted; [eapply W_step; eauto | exact Hd | pj; lia | exact E].
Qed.
Lemma offers_quiet : forall c s m w, W c s -> h_d s <> DIn -> h_i s <> ITest -> h_i s <> IPost -> held s ++ h_buf s = m :: w -> offers c s m.
Proof.
  intros c s m w w0 Hd I1 I2 E. destruct (h_d s) eqn:H.
  - apply (offers_idle c s m w); auto. destruct w0 as (_ & B & _). destruct B as [B|[B|[B|[B|B]]]]; auto; try contradiction. rewrite E. discriminate.
  - eapply offers_taken; eauto.
  - contradiction.
  - assert (D : step c s HSet = Some (set_d (set_timer s true) DIdle, [])) by (unfold step; rewrite H; destruct (h_i s); reflexivity).
    pose proof (W_step _ _ _ _ _ w0 D) as w1. eapply offers_step; [exact D | reflexivity |]. apply (offers_idle c _ m w); auto. left. pj. destruct w0 as (_ & _ & _ & Wd). rewrite H in Wd. apply Wd.
  - assert (D : step c s HClear = Some (set_d (set_disp s false) DRepost, [])) by (unfold step; rewrite H; destruct (h_i s); reflexivity).
    pose proof (W_step _ _ _ _ _ w0 D) as w1. eapply offers_step; [exact D | reflexivity |].
    set (s1 := set_d (set_disp s false) DRepost) in *. assert (D2 : step c s1 HRepost = Some (set_d (set_posted s1 (S (h_posted s1))) DIdle, [])) by (unfold step; subst s1; pj; destruct (h_i s); reflexivity).
    pose proof (W_step _ _ _ _ _ w1 D2) as w2. eapply offers_step; [exact D2 | reflexivity |]. apply (offers_posted c _ m w); auto. pj. lia.
  - assert (D2 : step c s HRepost = Some (set_d (set_posted s (S (h_posted s))) DIdle, [])) by (unfold step; rewrite H; destruct (h_i s); reflexivity).
    pose proof (W_step _ _ _ _ _ w0 D2) as w2. eapply offers_step; [exact D2 | reflexivity |]. apply (offers_posted c _ m w); auto. pj. lia.
Qed.
Lemma offers_any : forall c s m w, W c s -> h_d s <> DIn -> waiting s = m :: w -> offers c s m.
Proof.
  intros c s m w w0 Hd E.
  assert (P : forall s w, W c s -> h_d s <> DIn -> h_i s = IPost -> held s ++ h_buf s = m :: w -> offers c s m).
  { clear. intros s w w0 Hd Hi E. assert (D : step c s HPost = Some (set_i (set_posted s (S (h_posted s))) IIdle, [])) by (unfold step; rewrite Hi; reflexivity).
    eapply offers_step; [exact D | reflexivity |]. eapply offers_quiet; [eapply W_step; eauto | exact Hd | discriminate | discriminate | exact E]. }
  assert (T : forall s w, W c s -> h_d s <> DIn -> h_i s = ITest -> held s ++ h_buf s = m :: w -> offers c s m).
  { intros s0 w1 w2 Hd0 Hi0 E0. assert (D : step c s0 HTest = Some (set_i s0 (if h_disp s0 then IIdle else IPost), [])) by (unfold step; rewrite Hi0; reflexivity).
    pose proof (W_step _ _ _ _ _ w2 D) as w3. eapply offers_step; [exact D | reflexivity |]. destruct (h_disp s0); [eapply offers_quiet; eauto; discriminate | eapply P; eauto]. }
  unfold waiting in E. destruct (h_i s) eqn:Hi; rewrite ?app_nil_r in E.
  - eapply offers_quiet; eauto; congruence.
  - eapply offers_quiet; eauto; congruence.
  - assert (D : exists s', step c s HMove = Some (s', []) /\ h_d s' = h_d s /\ h_i s' = ITest /\ held s' ++ h_buf s' = m :: w).
    { unfold step. rewrite Hi. eexists. split; [reflexivity|]. pj. split; [reflexivity | split; [reflexivity|]]. exact E. }
    destruct D as (s' & D & D1 & D2 & D3). pose proof (W_step _ _ _ _ _ w0 D) as w1. eapply offers_step; [exact D | reflexivity |]. eapply T; eauto. congruence.
  - eapply T; eauto.
  - eapply P; eauto.
Qed.
(** Whenever on_msg_handle is not running, the first message that waits is offered to it without anything else happening outside of the
    library, in every configuration. *)
Theorem C99 : forall c l s t m w, run c handle0 l = Some (s, t) -> h_d s <> DIn -> waiting s = m :: w -> offers c s m.
Proof. intros c l s t m w R. apply offers_any. eapply W_run; eauto. Qed.
Print Assumptions C99.
(** a refused batch, while more messages arrive *)
Example C99_ex : exists s t, run (mk_c false true false) handle0 [HRecv [m1; m2]; HMove; HTest; HPost; HRun; HMark; HRet false; HRecv [m3]] = Some (s, t) /\ h_d s = DSet /\ waiting s = [m1; m2; m3].
Proof. do 2 eexists. split; [vm_compute; reflexivity|]. split; reflexivity. Qed.

(** ** C100 *)
Lemma bytes_app : forall a b, bytes (a ++ b) = (bytes a + bytes b)%N.
Proof. induction a as [|m a IH]; intro b; cbn; rewrite ?IH; lia. Qed.
Lemma bytes_split : forall k l, bytes l = (bytes (firstn k l) + bytes (skipn k l))%N.
Proof. intros. rewrite <- bytes_app, firstn_skipn. reflexivity. Qed.
Definition I100 (s : hst) : Prop := h_bytes s = bytes (h_buf s) /\ match h_i s with IMove ms sz => sz = 0%N \/ sz = bytes ms | _ => True end.
Lemma I100_step : forall c s a s' e, I100 s -> (forall k re, a = HOn k re -> k = 0 \/ re = true) -> step c s a = Some (s', e) -> I100 s'.
Proof.
  intros c s a s' e [A B] T D. unfold I100. cases D; repeat match goal with H : h_i _ = _ |- _ => rewrite H in * end; auto.
  all: try (split; [first [assumption | rewrite ?bytes_app; lia] | auto]; fail).
  - split; auto. right. destruct (T _ _ eq_refl) as [ -> |]; [reflexivity | discriminate].
  - split; auto. congruence.
  - split; auto. cbn [bytes] in A. lia.
  - split; auto. pose proof (bytes_split k (h_buf s)). lia.
Qed.
(** If on_msg has a positive result whenever it removed messages, the fill level that decides about receiving on (is_recv_buffer_available)
    is exactly the number of bytes in the receive buffer, in every configuration. *)
Theorem C100 : forall c l s t, run c handle0 l = Some (s, t) -> truthful l -> h_bytes s = bytes (h_buf s).
Proof.
  intros c l. assert (G : forall l s s' e, I100 s -> truthful l -> run c s l = Some (s', e) -> I100 s').
  { clear. induction l as [|a l IH]; intros s s' e J N R; cbn [run] in R; [injection R as <- <-; exact J|].
    destruct (step c s a) as [[s1 e1]|] eqn:E; [|discriminate]. destruct (run c s1 l) as [[s2 e2]|] eqn:E2; [|discriminate]. injection R as <- <-.
    apply (IH s1 s2 e2); [|intros k re Hk; apply (N k re); right; exact Hk | exact E2]. eapply I100_step; [exact J | | exact E]. intros k re ->. apply (N k re). left. reflexivity. }
  intros s t R T. refine (proj1 (G l handle0 s t _ T R)). split; [reflexivity | exact I].
Qed.
Print Assumptions C100.
Example C100_ex : exists s t, run (mk_c true false false) handle0 [HRecv [m1; m2; m3]; HOn 1 true; HMove; HTest; HPost; HRun] = Some (s, t) /\ truthful [HRecv [m1; m2; m3]; HOn 1 true; HMove; HTest; HPost; HRun] /\ h_bytes s = 30%N.
Proof. do 2 eexists. split; [vm_compute; reflexivity|]. split; [|reflexivity]. intros k re H. cbn in H. intuition congruence. Qed.
(** the condition is needed: otherwise the fill level stays too high for ever *)
Example C100_sharp : exists s t, run (mk_c true false false) handle0 [HRecv [m1]; HOn 1 false; HMove; HTest; HPost; HRun] = Some (s, t) /\ h_bytes s = 10%N /\ h_buf s = [].
Proof. do 2 eexists. split; [vm_compute; reflexivity|]. split; reflexivity. Qed.

(** ** C101 *)
(** With passive receiving: after every read the application is called, either on_msg at once or on_msg_handle, so that it can ask
    for the next read. *)
Theorem C101 : forall c l s t ms s' e, run c handle0 l = Some (s, t) -> passive c = true -> step c s (HRecv ms) = Some (s', e) ->
  In (EOn ms) e \/ (h_d s' <> DIn -> exists m, offers c s' m).
Proof.
  intros c l s t ms s' e R P D. pose proof (W_step _ _ _ _ _ (W_run _ _ _ _ R) D) as w. unfold step in D. destruct (h_i s) eqn:Hi; try discriminate. rewrite P in D.
  destruct (sync c).
  - rewrite andb_false_r in D. injection D as <- <-. left. right. left. reflexivity.
  - right. intro Hd. destruct ms as [|m ms]; cbn [is_nil] in D; injection D as <- <-.
    + destruct (waiting (set_i s (IMove [pad] 0%N))) as [|m w'] eqn:E; [|exists m; eapply offers_any; eauto]. unfold waiting in E. pj. apply app_eq_nil in E as [_ E]. apply app_eq_nil in E as [_ E]. discriminate.
    + destruct (waiting (set_i s (IMove (m :: ms) (bytes (m :: ms))))) as [|m' w'] eqn:E; [|exists m'; eapply offers_any; eauto]. unfold waiting in E. pj. apply app_eq_nil in E as [_ E]. apply app_eq_nil in E as [_ E]. discriminate.
Qed.
Print Assumptions C101.
(** a read that did not complete a message *)
Example C101_ex : exists s t, run (mk_c false false true) handle0 [HRecv []; HMove; HTest; HPost; HRun; HMark] = Some (s, t) /\ t = [ERead []; EPad pad; EOffer [pad]].
Proof. do 2 eexists. split; [vm_compute; reflexivity|]. reflexivity. Qed.
