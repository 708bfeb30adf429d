(** C152, C153: sessions of file transfers over one link. *)
From Coq Require Import List ZArith Bool Arith Lia.
From Verif Require Import M_Bytes M_File M_FileLink S_FileLink P_File.
Import ListNotations.
Open Scope Z_scope.

(** ** ranges and blocks *)
Definition rng (d : list byte) (p n : Z) : list byte := ztake n (zdrop p d).
Definition inside (d : list byte) (p n : Z) : Prop := 0 <= p /\ 0 <= n /\ p + n <= zlen d.
Lemma rng_len d p n : inside d p n -> zlen (rng d p n) = n.
Proof. intros (A & B & D). unfold rng. apply ztake_length. rewrite zlen_zdrop; lia. Qed.
Lemma rng_0 d p : rng d p 0 = [].
Proof. reflexivity. Qed.
Lemma fb_read_good d p n b p1 n1 : inside d p n -> 0 < n -> fb_read d p n = (b, p1, n1) -> exists l, b = Some l /\ l <> [] /\ inside d p1 n1 /\ rng d p n = l ++ rng d p1 n1.
Proof.
  intros (A & B & D) N H. unfold fb_read in H. destruct (Z.leb_spec n 0); [lia|]. remember (if XFER <? n then XFER else n) as k.
  assert (K : 0 < k <= n) by (subst k; destruct (Z.ltb_spec XFER n); unfold XFER in *; lia).
  assert (L : zlen (ztake k (zdrop p d)) = k) by (apply ztake_length; rewrite zlen_zdrop; lia). rewrite L, Z.eqb_refl in H. inversion H; subst b p1 n1. clear H.
  exists (ztake k (zdrop p d)). split; [reflexivity|]. split; [intros E; rewrite E in L; unfold zlen in L; cbn in L; lia|]. split; [unfold inside; lia|].
  unfold rng. replace n with (k + (n - k)) at 1 by lia. rewrite ztake_app by lia. rewrite zdrop_zdrop by lia. reflexivity.
Qed.
Lemma bytes_at_IB {M} (r : list byte) (ms : list M) : forall n d x, bytes_at n (map IB r ++ map IM ms) = Some (d, x) -> length d = n /\ exists r2, r = d ++ r2 /\ x = map IB r2 ++ map IM ms.
Proof.
  induction r as [|b r IH]; intros n d x H.
  - destruct n; cbn [map app bytes_at] in H; [inversion H; subst; split; [reflexivity|]; exists []; auto|]. destruct ms; discriminate H.
  - destruct n as [|n]; cbn [map app bytes_at] in H; [inversion H; subst; split; [reflexivity|]; exists (b :: r); auto|].
    destruct (bytes_at n (map IB r ++ map IM ms)) as [(d', y)|] eqn:E; [|discriminate]. inversion H; subst. destruct (IH _ _ _ E) as (A & r2 & -> & ->). split; [cbn; lia|]. exists r2. auto.
Qed.
Lemma slice_part num idx d o n : 0 < num -> 0 <= idx < num -> slice (zlen d) num idx = (o, n) -> inside d o n /\ part_of num idx d o (rng d o n).
Proof.
  intros N I H. unfold slice in H. set (L := zlen d) in *. assert (L0 : 0 <= L) by apply zlen_nonneg. assert (Q : Z.quot L num = L / num) by (apply Z.quot_div_nonneg; lia). rewrite Q in H.
  set (q := L / num) in *. assert (Q0 : 0 <= q) by (apply Z.div_pos; lia). assert (QN : num * q <= L) by (apply Z.mul_div_le; lia).
  assert (X : inside d o n). { unfold inside. fold L. destruct (Z.eqb_spec (num - 1) idx); inversion H; subst o n; nia. }
  split; [exact X|]. unfold part_of. rewrite <- (Z.eqb_sym (num - 1) idx). fold (zlen d) (zlen (rng d o n)). rewrite (rng_len _ _ _ X). fold L. fold q.
  split; [destruct (num - 1 =? idx); inversion H; lia|]. split; [destruct (num - 1 =? idx); inversion H; lia|].
  exists (ztake o d), (zdrop n (zdrop o d)). destruct X as (A & B & D). split; [|apply (ztake_length o d); lia].
  unfold rng, ztake, zdrop. rewrite firstn_skipn. rewrite firstn_skipn. reflexivity.
Qed.

(** ** how client and server stand to each other *)
(** no data is ahead; the client has sent a file the server is still writing; the server has written a file the client does not know to be sent *)
Inductive ahead : Type := D0 | DS (f : nat) | DV (f : nat).
Definition plain (x : option sph) : Prop := match x with None | Some SEnd | Some (SOut (OMsg _)) => True | _ => False end.
Definition Vq (v : srv) : Prop := v_st v <> BUSY /\ v_raw v = None /\ v_q v = [] /\ plain (v_send v).
Inductive Vdown : srv -> list byte -> Prop :=
| VD_q : forall h d nx x b p n, plain x -> x <> None -> inside d p n -> b <> [] -> Vdown (mk_v BUSY (Some (h, d)) nx None x [OBlk b (mk_fb h d p n)]) (b ++ rng d p n)
| VD_w : forall h d nx b p n, inside d p n -> Vdown (mk_v BUSY (Some (h, d)) nx None (Some (SOut (OBlk b (mk_fb h d p n)))) []) (rng d p n).
Inductive Vup : srv -> nat -> Z -> Z -> list byte -> Prop :=
| VU : forall fl nx f o left got x, plain x -> 0 < left -> Vup (mk_v BUSY fl nx (Some (mk_raw f o left got)) x []) f o left got.

Section Phases.
Variable c : fcfg.
Definition down_ok (f : nat) (o : Z) (l : list byte) : Prop := exists d, F c f = Some d /\ part_of (num c) (idx c) d o l.
Definition up_ok (f : nat) (o : Z) (l : list byte) : Prop := exists d, C c f = Some d /\ part_of (num c) (idx c) d o l.
(** what of earlier transfers is still to be received by the server *)
Inductive Pre : srv -> list byte -> ahead -> Prop :=
| Pre_q : forall v, Vq v -> Pre v [] D0
| Pre_d : forall v, Vdown v [] -> Pre v [] D0
| Pre_u : forall v f o left got r, Vup v f o left got -> zlen r = left -> up_ok f o (got ++ r) -> Pre v r (DS f).
Definition talks (k : nat) : list (item order) := map IM (repeat O2 k).
(** the order in the queue belongs to what the client wants *)
Inductive Want : job -> order -> Prop :=
| W_get : forall f, Want (JGet f) (O0 f)
| W_trunc : forall f, Want (JTrunc f) (O10 f)
| W_put : forall f d o n, C c f = Some d -> slice (zlen d) (num c) (idx c) = (o, n) -> 0 < n -> Want (JPut f d o) (O11 o n f).
Inductive phase : cli -> srv -> list (item order) -> list (item answer) -> ahead -> list (bool * nat) -> Prop :=
| P_idle : forall v r k a, Pre v r a -> phase c_idle v (map IB r ++ talks k) [] a []
| P_ask : forall v r k a j m w, Pre v r a -> Want j m -> (match j with JGet f => w = (true, f) | JTrunc f | JPut f _ _ => w = (false, f) | JNone => False end) ->
    phase (mk_c PREPARE j None None) v (map IB r ++ talks k ++ [IM m]) [] a [w]
| P_R0 : forall v f len, Vq v -> (match F c f with Some d => len = zlen d /\ v_st v = PREPARE /\ (exists h, v_file v = Some (h, d)) | None => len = -1 end) ->
    phase (mk_c PREPARE (JGet f) None None) v [] [IM (R0 len)] D0 [(true, f)]
| P_R10 : forall v f, Vq v -> phase (mk_c PREPARE (JTrunc f) None None) v [] [IM (R10 (U c f) f)] D0 [(false, f)]
| P_R11 : forall v f d o n, C c f = Some d -> slice (zlen d) (num c) (idx c) = (o, n) -> 0 < n -> (if U c f then Vup v f o n [] else Vq v) ->
    phase (mk_c PREPARE (JPut f d o) None None) v [] [IM (R11 n (U c f))] D0 [(false, f)]
| P_O1 : forall v f d h o n, Vq v -> v_st v = PREPARE -> v_file v = Some (h, d) -> F c f = Some d -> slice (zlen d) (num c) (idx c) = (o, n) -> 0 < n ->
    phase (mk_c BUSY (JGet f) (Some (mk_raw f o n [])) None) v [IM (O1 o n)] [] D0 [(true, f)]
| P_down : forall v f o left got r rem, (Vdown v rem \/ rem = [] /\ Vq v) -> left = zlen r + zlen rem -> 0 < left -> down_ok f o (got ++ r ++ rem) ->
    phase (mk_c BUSY (JGet f) (Some (mk_raw f o left got)) None) v [] (map IB r) D0 [(true, f)]
| P_up : forall v f d p0 p n o left got r, inside d p n -> Vup v f o left got -> left = zlen r + n -> up_ok f o (got ++ r ++ rng d p n) ->
    phase (mk_c BUSY (JPut f d p0) None (Some (mk_fb 0 d p n))) v (map IB r) [] D0 [(false, f)]
| P_updone : forall v f d p0 p n, n <= 0 -> Vq v -> phase (mk_c BUSY (JPut f d p0) None (Some (mk_fb 0 d p n))) v [] [] (DV f) [(false, f)].

Definition ahead_ok (t : list fev) (a : ahead) : Prop :=
  match a with D0 => sent t = stored t | DS f => sent t = stored t ++ [f] | DV f => stored t = sent t ++ [f] end.
Record inv (s : fst) (t : list fev) : Prop := mk_inv {
  i_dead : f_dead s = false;
  i_ok : forall e, In e t -> harm e = false /\ exact_ev c e;
  i_ph : exists a w, phase (f_c s) (f_v s) (f_cs s) (f_sc s) a w /\ ahead_ok t a /\ asked t = ended t ++ w
}.

(** ** one step *)
Lemma Vq_bg s a s1 t1 : Vq (f_v s) -> a = SSent \/ a = SClear -> fstep c s a = Some (s1, t1) ->
  exists v1, s1 = set_v s v1 /\ t1 = [] /\ Vq v1 /\ v_st v1 = v_st (f_v s) /\ v_file v1 = v_file (f_v s).
Proof.
  destruct s as [k v cs sc dd]. destruct v as [st fl nx rw sd q]. unfold Vq. cbn [f_v v_st v_raw v_q v_send v_file]. intros (A & -> & -> & P) [-> | ->] H; unfold fstep in H; cbn in H; destruct dd; try discriminate H;
    destruct sd as [[[r|d b]|]|]; cbn in P; try contradiction; try discriminate H; cbn in H; inversion H; subst; eexists; repeat split; auto.
Qed.
Lemma Vup_bg s a s1 t1 f o left got : Vup (f_v s) f o left got -> a = SSent \/ a = SClear -> fstep c s a = Some (s1, t1) -> exists v1, s1 = set_v s v1 /\ t1 = [] /\ Vup v1 f o left got.
Proof.
  destruct s as [k v cs sc dd]. cbn [f_v]. intros V [-> | ->] H; destruct V as [fl nx f o left got x P L]; unfold fstep in H; cbn in H; destruct dd; try discriminate H;
    destruct x as [[[r|d b]|]|]; cbn in P; try contradiction; try discriminate H; cbn in H; inversion H; subst; eexists; (split; [reflexivity|]); (split; [reflexivity|]); constructor; cbn; auto.
Qed.
Lemma Vdown_bg s a s1 t1 rem : Vdown (f_v s) rem -> a = SSent \/ a = SClear -> fstep c s a = Some (s1, t1) ->
  exists v1 new rem1, s1 = set_sc (set_v s v1) (f_sc s ++ map IB new) /\ t1 = [] /\ rem = new ++ rem1 /\ (Vdown v1 rem1 \/ rem1 = [] /\ Vq v1).
Proof.
  destruct s as [k v cs sc dd]. cbn [f_v]. intros V [-> | ->] H; destruct V as [h d nx x b p n P NN I B|h d nx b p n I]; unfold fstep in H; cbn in H; destruct dd; try discriminate H.
  - destruct x as [[[r|d0 b0]|]|]; cbn in P; try contradiction; try discriminate H. cbn in H. inversion H; subst. eexists _, [], _. split; [unfold set_sc, set_v; cbn; rewrite app_nil_r; reflexivity|]. split; [reflexivity|]. split; [reflexivity|].
    left. constructor; cbn; auto; discriminate.
  - cbn in H. destruct (Z.leb_spec n 0) as [N|N].
    + cbn in H. inversion H; subst. assert (n = 0) as -> by (destruct I; lia). eexists _, [], []. split; [unfold set_sc, set_v; cbn; rewrite app_nil_r; reflexivity|]. split; [reflexivity|]. split; [reflexivity|]. right. split; [reflexivity|]. unfold Vq. cbn. repeat split; discriminate.
    + rewrite Nat.eqb_refl in H. destruct (fb_read d p n) as ((bl, p1), n1) eqn:E. destruct (fb_read_good _ _ _ _ _ _ I N E) as (l & -> & LN & I1 & R). cbn in H. inversion H; subst.
      eexists _, [], (rng d p n). split; [unfold set_sc, set_v; cbn; rewrite app_nil_r; reflexivity|]. split; [reflexivity|]. split; [reflexivity|]. left. rewrite R. constructor; cbn; auto; discriminate.
  - destruct x as [[[r|d0 b0]|]|]; cbn in P; try contradiction; try discriminate H. cbn in H. inversion H; subst. eexists _, b, _. split; [reflexivity|]. split; [reflexivity|]. split; [reflexivity|]. left. constructor. exact I.
Qed.
Lemma Vdown_not_q v rem : Vdown v rem -> v_send v <> None.
Proof. intros []; cbn; [assumption|discriminate]. Qed.
Lemma Vdown_st v rem : Vdown v rem -> v_raw v = None.
Proof. intros []; reflexivity. Qed.
Lemma Vup_raw v f o left got : Vup v f o left got -> v_raw v = Some (mk_raw f o left got) /\ 0 < left.
Proof. intros []; auto. Qed.
(** before a message of the client comes to its turn, bytes are received *)
Lemma Pre_nil v a : Pre v [] a -> (Vq v \/ Vdown v []) /\ a = D0.
Proof. intros H. inversion H as [v0 V|v0 V|v0 f o left got r V L O]; subst; auto. apply Vup_raw in V. destruct V as [_ V]. unfold zlen in V. cbn in V. lia. Qed.
Lemma Pre_bg s a s1 t1 r h : Pre (f_v s) r h -> a = SSent \/ a = SClear -> fstep c s a = Some (s1, t1) -> exists v1, s1 = set_v s v1 /\ t1 = [] /\ Pre v1 r h.
Proof.
  intros P A H. inversion P as [v V|v V|v f o left got r' V L O]; subst.
  - destruct (Vq_bg _ _ _ _ V A H) as (v1 & -> & -> & V1 & _). exists v1. split; [reflexivity|]. split; [reflexivity|]. constructor. exact V1.
  - destruct (Vdown_bg _ _ _ _ _ V A H) as (v1 & new & rem1 & -> & -> & E & K). symmetry in E. apply app_eq_nil in E. destruct E as [-> ->]. exists v1. split; [destruct s; unfold set_sc, set_v; cbn; rewrite app_nil_r; reflexivity|]. split; [reflexivity|].
    destruct K as [K|[_ K]]; [apply Pre_d|apply Pre_q]; exact K.
  - destruct (Vup_bg _ _ _ _ _ _ _ _ V A H) as (v1 & -> & -> & V1). exists v1. split; [reflexivity|]. split; [reflexivity|]. econstructor; eauto.
Qed.

Definition good (s1 : fst) (t1 : list fev) (a : ahead) (w : list (bool * nat)) : Prop :=
  f_dead s1 = false /\ (forall e, In e t1 -> harm e = false /\ exact_ev c e) /\
  exists a1 w1, phase (f_c s1) (f_v s1) (f_cs s1) (f_sc s1) a1 w1 /\ (forall t, ahead_ok t a -> ahead_ok (t ++ t1) a1) /\ w ++ asked t1 = ended t1 ++ w1.
Lemma good0 s1 a w : f_dead s1 = false -> phase (f_c s1) (f_v s1) (f_cs s1) (f_sc s1) a w -> good s1 [] a w.
Proof. intros D P. split; [exact D|]. split; [intros e []|]. exists a, w. split; [exact P|]. split; [intros t A; rewrite app_nil_r; exact A|]. cbn. apply app_nil_r. Qed.

Lemma step_bg k v cs sc a w x s1 t1 : phase k v cs sc a w -> x = SSent \/ x = SClear -> fstep c (mk_f k v cs sc false) x = Some (s1, t1) -> good s1 t1 a w.
Proof.
  intros P X H. set (s := mk_f k v cs sc false) in *. destruct P.
  - destruct (Pre_bg s _ _ _ _ _ H0 X H) as (v1 & -> & -> & P1). apply good0; [reflexivity|]. apply P_idle. exact P1.
  - destruct (Pre_bg s _ _ _ _ _ H0 X H) as (v1 & -> & -> & P1). apply good0; [reflexivity|]. apply P_ask; assumption.
  - destruct (Vq_bg s _ _ _ H0 X H) as (v1 & -> & -> & V1 & E1 & E2). apply good0; [reflexivity|]. apply P_R0; [exact V1|]. cbn [f_v set_v s] in *. rewrite E1, E2. exact H1.
  - destruct (Vq_bg s _ _ _ H0 X H) as (v1 & -> & -> & V1 & E1 & E2). apply good0; [reflexivity|]. apply P_R10; exact V1.
  - destruct (U c f) eqn:E.
    + destruct (Vup_bg s _ _ _ _ _ _ _ H3 X H) as (v1 & -> & -> & V1). apply good0; [reflexivity|]. cbn [s set_v f_c f_v f_cs f_sc]. pose proof (P_R11 v1 f d o n H0 H1 H2) as K. rewrite E in K. exact (K V1).
    + destruct (Vq_bg s _ _ _ H3 X H) as (v1 & -> & -> & V1 & E1 & E2). apply good0; [reflexivity|]. cbn [s set_v f_c f_v f_cs f_sc]. pose proof (P_R11 v1 f d o n H0 H1 H2) as K. rewrite E in K. exact (K V1).
  - destruct (Vq_bg s _ _ _ H0 X H) as (v1 & -> & -> & V1 & E1 & E2). apply good0; [reflexivity|]. cbn [f_v set_v s] in *. apply (P_O1 v1 f d h o n); auto; congruence.
  - destruct H0 as [V|[-> V]].
    + destruct (Vdown_bg s _ _ _ _ V X H) as (v1 & new & rem1 & -> & -> & -> & K). apply good0; [reflexivity|]. cbn [s set_sc set_v f_c f_v f_cs f_sc]. rewrite <- map_app.
      unfold zlen in *. rewrite app_length in H1. apply (P_down v1 f o left got (r ++ new) rem1); auto; [unfold zlen; rewrite app_length; lia|]. rewrite <- (app_assoc r). exact H3.
    + destruct (Vq_bg s _ _ _ V X H) as (v1 & -> & -> & V1 & E1 & E2). apply good0; [reflexivity|]. cbn [s set_v f_c f_v f_cs f_sc]. apply (P_down v1 f o left got r []); auto.
  - destruct (Vup_bg s _ _ _ _ _ _ _ H1 X H) as (v1 & -> & -> & V1). apply good0; [reflexivity|]. cbn [s set_v f_c f_v f_cs f_sc]. eapply P_up; eauto.
  - destruct (Vq_bg s _ _ _ H1 X H) as (v1 & -> & -> & V1 & E1 & E2). apply good0; [reflexivity|]. cbn [s set_v f_c f_v f_cs f_sc]. apply P_updone; auto.
Qed.

Hypothesis CF : cfg_ok c.
(** put_file for a link that is ready for it *)
Lemma put_good k v r n0 a s1 t1 f : Pre v r a -> put_file c (mk_f k v (map IB r ++ talks n0) [] false) f = (s1, t1) -> good s1 t1 a [(false, f)].
Proof.
  intros P H. destruct CF as (N & I & _). unfold put_file in H. destruct (C c f) as [d|] eqn:E.
  - destruct (slice (zlen d) (num c) (idx c)) as (o, n) eqn:S. destruct (Z.ltb_spec 0 n).
    + inversion H; subst. apply good0; [reflexivity|]. unfold ask, set_cs, set_c. cbn [f_c f_v f_cs f_sc]. rewrite <- app_assoc. eapply P_ask; [exact P|econstructor; eauto|reflexivity].
    + inversion H; subst. split; [reflexivity|]. split; [intros e [<-|[]]; split; [reflexivity|exact Logic.I]|]. exists a, []. unfold set_c. cbn [f_c f_v f_cs f_sc]. split; [apply P_idle; exact P|]. split; [|reflexivity].
      intros t A. unfold ahead_ok, sent, stored in *. rewrite !flat_map_app. cbn. rewrite !app_nil_r. exact A.
  - inversion H; subst. split; [reflexivity|]. split; [intros e [<-|[]]; split; [reflexivity|cbn; auto]|]. exists a, []. unfold set_c. cbn [f_c f_v f_cs f_sc]. split; [apply P_idle; exact P|]. split; [|reflexivity].
    intros t A. unfold ahead_ok, sent, stored in *. rewrite !flat_map_app. cbn. rewrite !app_nil_r. exact A.
Qed.
Lemma step_user k v cs sc a w x s1 t1 : phase k v cs sc a w -> inner x = false -> own x = true -> fstep c (mk_f k v cs sc false) x = Some (s1, t1) -> good s1 t1 a w.
Proof.
  intros P X O H. destruct P; try (destruct x; try discriminate X; try discriminate O; cbn in H; discriminate H).
  destruct x; try discriminate X; try discriminate O; cbn in H.
  - inversion H; subst. split; [reflexivity|]. split; [intros e [<-|[]]; split; [reflexivity|exact Logic.I]|]. exists a, [(true, f)]. unfold ask, set_cs, set_c. cbn [f_c f_v f_cs f_sc]. rewrite <- app_assoc.
    split; [eapply P_ask; [exact H0|constructor|reflexivity]|]. split; [|reflexivity]. intros t A. unfold ahead_ok, sent, stored in *. rewrite !flat_map_app. cbn. rewrite !app_nil_r. exact A.
  - destruct (idx c =? 0); [|discriminate H]. inversion H; subst. split; [reflexivity|]. split; [intros e [<-|[]]; split; [reflexivity|exact Logic.I]|]. exists a, [(false, f)]. unfold ask, set_cs, set_c. cbn [f_c f_v f_cs f_sc]. rewrite <- app_assoc.
    split; [eapply P_ask; [exact H0|constructor|reflexivity]|]. split; [|reflexivity]. intros t A. unfold ahead_ok, sent, stored in *. rewrite !flat_map_app. cbn. rewrite !app_nil_r. exact A.
  - destruct (idx c =? 0); [discriminate H|]. destruct (put_file c _ f) as (s2, t2) eqn:E in H. inversion H; subst. destruct (put_good _ _ _ _ _ _ _ _ H0 E) as (A & B & a1 & w1 & D & G & K).
    split; [exact A|]. split; [intros e [<-|J]; [split; [reflexivity|exact Logic.I]|auto]|]. exists a1, w1. split; [exact D|]. split; [|cbn; exact K].
    intros t Y. replace (t ++ EPut f :: t2) with ((t ++ [EPut f]) ++ t2) by (rewrite <- app_assoc; reflexivity). apply G. unfold ahead_ok, sent, stored in *. rewrite !flat_map_app. cbn. rewrite !app_nil_r. exact Y.
  - inversion H; subst. apply good0; [reflexivity|]. unfold ask, set_cs. cbn [f_c f_v f_cs f_sc]. rewrite <- app_assoc. replace (talks k ++ [IM O2]) with (talks (S k)); [apply P_idle; exact H0|].
    unfold talks. clear. induction k; cbn in *; [reflexivity|]. f_equal. exact IHk.
Qed.
Lemma step_csent k v cs sc a w s1 t1 : phase k v cs sc a w -> fstep c (mk_f k v cs sc false) CSent = Some (s1, t1) -> good s1 t1 a w.
Proof.
  intros P H. destruct P; try (cbn in H; discriminate H).
  - cbn in H. unfold c_block in H. destruct (Z.leb_spec n 0) as [L|L].
    + assert (n = 0) as -> by (destruct H0; lia). cbn in H. inversion H; subst. split; [reflexivity|]. split; [intros e [<-|[]]; split; [reflexivity|exact Logic.I]|]. exists (DS f), []. unfold set_c. cbn [f_c f_v f_cs f_sc].
      split; [|split; [|reflexivity]].
      * replace (map IB r) with (map IB r ++ talks 0 : list (item order)) by apply app_nil_r. apply P_idle. rewrite rng_0 in H3. rewrite app_nil_r in H3. econstructor; [exact H1|lia|exact H3].
      * intros t A. unfold ahead_ok, sent, stored in *. rewrite !flat_map_app. cbn. rewrite app_nil_r. rewrite A. reflexivity.
    + destruct (fb_read d p n) as ((bl, p1), n1) eqn:E. destruct (fb_read_good _ _ _ _ _ _ H0 L E) as (l & -> & LN & I1 & R). destruct l as [|b0 l]; [contradiction|]. remember (b0 :: l) as bb.
      assert (HH : s1 = set_cs (set_c (set_c (mk_f (mk_c BUSY (JPut f d p0) None (Some (mk_fb 0 d p n))) v (map IB r) [] false) (mk_c BUSY (JPut f d p0) None None)) (mk_c BUSY (JPut f d p1) None (Some (mk_fb 0 d p1 n1)))) (map IB r ++ map IB bb) /\ t1 = [])
        by (subst bb; inversion H; auto).
      destruct HH as [-> ->]. apply good0; [reflexivity|]. unfold set_cs, set_c. cbn [f_c f_v f_cs f_sc]. rewrite <- map_app. pose proof (rng_len _ _ _ H0) as L0. rewrite R, zlen_app in L0. rewrite (rng_len _ _ _ I1) in L0.
      eapply P_up; [exact I1|exact H1|rewrite zlen_app; lia|]. rewrite R in H3. rewrite <- (app_assoc r). exact H3.
  - cbn in H. unfold c_block, fb_read in H. destruct (Z.leb_spec n 0); [|lia]. inversion H; subst. split; [reflexivity|]. split; [intros e [<-|[]]; split; [reflexivity|exact Logic.I]|]. exists D0, []. unfold set_c. cbn [f_c f_v f_cs f_sc].
    split; [apply (P_idle v [] 0 D0); constructor; exact H1|]. split; [|reflexivity]. intros t A. unfold ahead_ok, sent, stored in *. rewrite !flat_map_app. cbn. rewrite app_nil_r. symmetry. exact A.
Qed.

Lemma fits_le r n : fits r n = true -> (0 < n)%nat /\ Z.of_nat n <= r_left r.
Proof. unfold fits. intros H. apply andb_true_iff in H. destruct H as [A B]. apply Z.ltb_lt in A. apply Z.leb_le in B. lia. Qed.
Lemma take_raw k v b r ms sc n s1 t1 f o left got : Vup v f o left got -> fstep c (mk_f k v (map IB (b :: r) ++ map IM ms) sc false) (STake n) = Some (s1, t1) ->
  exists d r2, b :: r = d ++ r2 /\ ((left = zlen d /\ t1 = [EStored f o (got ++ d)] /\ exists v1, s1 = mk_f k v1 (map IB r2 ++ map IM ms) sc false /\ Vq v1) \/
    (zlen d < left /\ t1 = [] /\ exists v1, s1 = mk_f k v1 (map IB r2 ++ map IM ms) sc false /\ Vup v1 f o (left - zlen d) (got ++ d))).
Proof.
  intros V H. destruct V as [fl nx f o left got x P L]. unfold fstep in H. cbn [f_dead f_v v_raw f_cs map app r_left] in H. destruct (Z.leb_spec left 0); [lia|].
  destruct (fits _ n) eqn:E; [|discriminate H]. apply fits_le in E. cbn [r_left] in E. change (IB b :: map IB r ++ map IM ms) with (map IB (b :: r) ++ map IM ms : list (item order)) in H.
  destruct (bytes_at n _) as [(d, y)|] eqn:B; [|discriminate H]. apply bytes_at_IB in B. destruct B as (B & r2 & R & ->). exists d, r2. split; [exact R|]. cbn [more_raw r_left r_f r_o r_got] in H.
  assert (zlen d = Z.of_nat n) as ZD by (unfold zlen; rewrite B; reflexivity).
  destruct (Z.eqb_spec (left - zlen d) 0) as [Z|Z]; inversion H; subst.
  - left. split; [lia|]. split; [reflexivity|]. eexists. split; [reflexivity|]. unfold Vq, v_end. cbn. split; [discriminate|]. auto.
  - right. split; [lia|]. split; [reflexivity|]. eexists. split; [reflexivity|]. unfold more_raw. cbn [r_left r_f r_o r_got]. constructor; [exact P|lia].
Qed.
(** what is left of earlier transfers is received *)
Lemma take_pre k v b r a ms sc n s1 t1 : Pre v (b :: r) a -> fstep c (mk_f k v (map IB (b :: r) ++ map IM ms) sc false) (STake n) = Some (s1, t1) ->
  exists v1 r1 a1, s1 = mk_f k v1 (map IB r1 ++ map IM ms) sc false /\ Pre v1 r1 a1 /\ (forall e, In e t1 -> harm e = false /\ exact_ev c e) /\ asked t1 = [] /\ ended t1 = [] /\
    (forall t, ahead_ok t a -> ahead_ok (t ++ t1) a1).
Proof.
  intros P H. remember (b :: r) as r0 eqn:R0'. destruct P as [v V|v V|v f o left got r0 V L O]; try discriminate R0'. subst r0.
  destruct (take_raw _ _ _ _ _ _ _ _ _ _ _ _ _ V H) as (d & r2 & R & [(L1 & -> & v1 & -> & Q)|(L1 & -> & v1 & -> & Q)]).
  - assert (r2 = []) as -> by (apply zlen_0; rewrite R, zlen_app in L; lia). rewrite app_nil_r in R. exists v1, [], D0. split; [reflexivity|]. split; [constructor; exact Q|].
    split; [intros e [<-|[]]; split; [reflexivity|]; cbn; rewrite <- R; exact O|]. split; [reflexivity|]. split; [reflexivity|]. intros t A. unfold ahead_ok, sent, stored in *. rewrite !flat_map_app. cbn. rewrite app_nil_r. exact A.
  - exists v1, r2, (DS f). split; [reflexivity|]. rewrite R in L, O. rewrite zlen_app in L. split; [eapply Pre_u; [exact Q|lia|rewrite <- app_assoc; exact O]|]. split; [intros e []|]. split; [reflexivity|]. split; [reflexivity|].
    intros t A. rewrite app_nil_r. exact A.
Qed.
Lemma Pre_msg v a st : Pre v [] a -> v_send v = None -> v_st v = st -> a = D0 /\ st <> BUSY /\ v = mk_v st (v_file v) (v_next v) None None [].
Proof.
  intros P N S. destruct (Pre_nil _ _ P) as [[(A & B & D & E)|V] ->]; [|exfalso; exact (Vdown_not_q _ _ V N)]. split; [reflexivity|]. split; [congruence|]. destruct v; cbn in *; subst. reflexivity.
Qed.
Lemma talks_map k : talks k = map IM (repeat O2 k).
Proof. reflexivity. Qed.

Lemma step_stake k v cs sc a w n s1 t1 : phase k v cs sc a w -> prompt1 (mk_f k v cs sc false) (STake n) -> fstep c (mk_f k v cs sc false) (STake n) = Some (s1, t1) -> good s1 t1 a w.
Proof.
  intros P PR H. destruct CF as (N & I & LF & LC). destruct P; try (unfold fstep in H; cbn in H; destruct (v_raw v); discriminate H).
  - destruct r as [|b r].
    + destruct k as [|k]; [unfold fstep in H; cbn in H; destruct (v_raw v); discriminate H|]. cbn in PR. destruct (Pre_msg _ _ _ H0 PR eq_refl) as (-> & B & V).
      unfold fstep in H. cbn [f_dead f_v f_cs map app talks repeat] in H. rewrite V in H. cbn [v_raw] in H. destruct (Nat.eqb n 0); [|discriminate H]. unfold v_msg in H. cbn [f_v v_st set_cs] in H.
      destruct (v_st v); try contradiction; inversion H; subst; (apply good0; [reflexivity|]); unfold set_cs; cbn [f_c f_v f_cs f_sc]; rewrite <- V; apply (P_idle v [] k D0); exact H0.
    + rewrite talks_map in H. destruct (take_pre _ _ _ _ _ _ _ _ _ _ H0 H) as (v1 & r1 & a1 & -> & P1 & E1 & E2 & E3 & E4). split; [reflexivity|]. split; [exact E1|]. exists a1, []. split; [apply (P_idle v1 r1 k a1); exact P1|]. split; [exact E4|].
      rewrite E2, E3. reflexivity.
  - destruct r as [|b r].
    + destruct k as [|k].
      * assert (NS : v_send v = None) by (destruct H1; exact PR). destruct (Pre_msg _ _ _ H0 NS eq_refl) as (-> & B & V).
        unfold fstep in H. cbn [f_dead f_v f_cs map app talks repeat] in H. rewrite V in H. cbn [v_raw] in H. destruct (Nat.eqb n 0); [|discriminate H]. unfold v_msg in H. cbn [f_v v_st set_cs] in H.
        destruct H1 as [f|f|f d o m C1 S1 L1]; subst w.
        { assert (HH : match F c f with
            | Some d => s1 = mk_f (mk_c PREPARE (JGet f) None None) (mk_v PREPARE (Some (v_next v, d)) (S (v_next v)) None (Some (SOut (OMsg (R0 (zlen d))))) []) [] [IM (R0 (zlen d))] false
            | None => s1 = mk_f (mk_c PREPARE (JGet f) None None) (mk_v IDLE None (v_next v) None (Some (SOut (OMsg (R0 (-1))))) []) [] [IM (R0 (-1))] false end /\ t1 = [])
            by (destruct (v_st v); try contradiction; cbn in H; destruct (F c f); inversion H; auto).
          destruct HH as [HH ->]. clear H. destruct (F c f) as [d|] eqn:EF; subst s1; (apply good0; [reflexivity|]); cbn [f_c f_v f_cs f_sc]; apply P_R0; try (unfold Vq; cbn; repeat split; discriminate).
          - rewrite EF. cbn. split; [reflexivity|]. split; [reflexivity|]. eexists. reflexivity.
          - rewrite EF. reflexivity. }
        { assert (HH : s1 = mk_f (mk_c PREPARE (JTrunc f) None None) (mk_v IDLE None (v_next v) None (Some (SOut (OMsg (R10 (U c f) f)))) []) [] [IM (R10 (U c f) f)] false /\ t1 = [])
            by (destruct (v_st v); try contradiction; cbn in H; inversion H; auto).
          destruct HH as [-> ->]. apply good0; [reflexivity|]. cbn [f_c f_v f_cs f_sc]. apply P_R10. unfold Vq; cbn; repeat split; discriminate. }
        { assert (HH : (if U c f then s1 = mk_f (mk_c PREPARE (JPut f d o) None None) (mk_v BUSY (Some (v_next v, [])) (S (v_next v)) (Some (mk_raw f o m [])) (Some (SOut (OMsg (R11 m true)))) []) [] [IM (R11 m true)] false
              else s1 = mk_f (mk_c PREPARE (JPut f d o) None None) (mk_v IDLE None (v_next v) None (Some (SOut (OMsg (R11 m false)))) []) [] [IM (R11 m false)] false) /\ t1 = [])
            by (destruct (v_st v); try contradiction; cbn in H; destruct (U c f); inversion H; auto).
          destruct HH as [HH ->]. clear H. pose proof (fun vv => P_R11 vv f d o m C1 S1 L1) as K. destruct (U c f); subst s1; (apply good0; [reflexivity|]); cbn [f_c f_v f_cs f_sc]; apply K;
            [constructor; [exact Logic.I|exact L1]|unfold Vq; cbn; repeat split; discriminate]. }
      * cbn in PR. destruct (Pre_msg _ _ _ H0 PR eq_refl) as (-> & B & V).
        unfold fstep in H. cbn [f_dead f_v f_cs map app talks repeat] in H. rewrite V in H. cbn [v_raw] in H. destruct (Nat.eqb n 0); [|discriminate H]. unfold v_msg in H. cbn [f_v v_st set_cs] in H.
        destruct (v_st v); try contradiction; inversion H; subst; (apply good0; [reflexivity|]); unfold set_cs; cbn [f_c f_v f_cs f_sc]; rewrite <- V; apply (P_ask v [] k D0 j m w); assumption.
    + replace (talks k ++ [IM m]) with (map IM (repeat O2 k ++ [m]) : list (item order)) in H by (rewrite map_app; reflexivity).
      destruct (take_pre _ _ _ _ _ _ _ _ _ _ H0 H) as (v1 & r1 & a1 & -> & P1 & E1 & E2 & E3 & E4). split; [reflexivity|]. split; [exact E1|]. exists a1, [w]. cbn [f_c f_v f_cs f_sc]. rewrite map_app.
      split; [apply (P_ask v1 r1 k a1 j m w); assumption|]. split; [exact E4|]. rewrite E2, E3. reflexivity.
  - (* the contents are ordered *)
    destruct (slice_part _ _ _ _ _ N I H4) as [IN PT]. destruct v as [st fl nx rw sd q]. destruct H0 as (A & B & D & E). cbn [v_st v_raw v_q v_send v_file] in *. subst st fl rw q.
    unfold fstep in H. cbn [f_dead f_v f_cs v_raw] in H. destruct (Nat.eqb n 0); [|discriminate H]. unfold v_msg in H. cbn [f_v v_st v_file set_cs] in H.
    assert (server_accepts (zlen d) o n0 = Ok true) as AC. { pose proof (LF _ _ H3) as LL. fold (zlen d) in LL. destruct IN as (IN1 & IN2 & IN3). apply C54_refused; lia. }
    rewrite AC in H. destruct (fb_read d o n0) as ((bl, p1), n1) eqn:FB. destruct (fb_read_good _ _ _ _ _ _ IN H5 FB) as (l & -> & LN & I1 & R). unfold v_put in H. cbn [v_send v_st v_file v_next v_raw v_q set_v set_sc f_sc bytes_of] in H.
    assert (DO : down_ok f o (rng d o n0)) by (exists d; auto). pose proof (rng_len _ _ _ IN) as LL.
    destruct sd as [x|]; inversion H; subst; (apply good0; [reflexivity|]); unfold set_v, set_sc; cbn [f_c f_v f_cs f_sc].
    + apply (P_down _ f o n0 [] [] (rng d o n0)); [|rewrite LL; reflexivity|exact H5|exact DO]. left. rewrite R. constructor; auto. discriminate.
    + apply (P_down _ f o n0 [] l (rng d p1 n1)); [left; constructor; exact I1|rewrite R, zlen_app in LL; lia|exact H5|]. cbn [app]. rewrite <- R. exact DO.
  - (* bytes of an upload *)
    destruct r as [|b r]; [unfold fstep in H; cbn in H; destruct (v_raw v); discriminate H|]. replace (map IB (b :: r)) with (map IB (b :: r) ++ map IM [] : list (item order)) in H by apply app_nil_r.
    destruct (take_raw _ _ _ _ _ _ _ _ _ _ _ _ _ H1 H) as (x & r2 & R & [(L1 & -> & v1 & -> & Q)|(L1 & -> & v1 & -> & Q)]).
    + rewrite R, zlen_app in H2. pose proof (zlen_nonneg r2). destruct H0 as (J1 & J2 & J3). assert (n0 = 0) as -> by lia. assert (r2 = []) as -> by (apply zlen_0; lia). rewrite R, rng_0, !app_nil_r in H3.
      split; [reflexivity|]. split; [intros e [<-|[]]; split; [reflexivity|exact H3]|]. exists (DV f), [(false, f)]. split; [apply P_updone; [lia|exact Q]|]. split; [|reflexivity].
      intros t A. unfold ahead_ok, sent, stored in *. rewrite !flat_map_app. cbn. rewrite app_nil_r, A. reflexivity.
    + apply good0; [reflexivity|]. cbn [f_c f_v f_cs f_sc map]. rewrite app_nil_r. rewrite R, zlen_app in H2. eapply P_up; [exact H0|exact Q|lia|]. rewrite R in H3. rewrite <- app_assoc. rewrite <- app_assoc in H3. exact H3.
Qed.

Lemma step_ctake k v cs sc a w n s1 t1 : phase k v cs sc a w -> fstep c (mk_f k v cs sc false) (CTake n) = Some (s1, t1) -> good s1 t1 a w.
Proof.
  intros P H. destruct CF as (N & I & LF & LC). destruct P; try (unfold fstep in H; cbn in H; discriminate H).
  - unfold fstep in H. cbn [f_dead f_c c_raw f_sc] in H. destruct (Nat.eqb n 0); [|discriminate H]. unfold c_msg in H. cbn [f_c c_st c_job set_sc] in H.
    destruct (F c f) as [d|] eqn:EF.
    + destruct H1 as (-> & ST & h & FL). destruct (Z.eqb_spec (zlen d) (-1)) as [X|X]; [pose proof (zlen_nonneg d); lia|]. destruct (slice (zlen d) (num c) (idx c)) as (o, m) eqn:S. destruct (Z.ltb_spec 0 m).
      * inversion H; subst. apply good0; [reflexivity|]. apply (P_O1 v f d h o m); assumption.
      * inversion H; subst. destruct (slice_part _ _ _ _ _ N I S) as [(I1 & I2 & I3) PT]. assert (m = 0) as -> by lia. split; [reflexivity|]. split; [intros e [<-|[]]; split; [reflexivity|]; exists d; auto|].
        exists D0, []. split; [apply (P_idle v [] 0 D0); constructor; exact H0|]. split; [|reflexivity]. intros t A. unfold ahead_ok, sent, stored in *. rewrite !flat_map_app. cbn. rewrite !app_nil_r. exact A.
    + subst len. cbn in H. inversion H; subst. split; [reflexivity|]. split; [intros e [<-|[]]; split; [reflexivity|exact EF]|].
      exists D0, []. split; [apply (P_idle v [] 0 D0); constructor; exact H0|]. split; [|reflexivity]. intros t A. unfold ahead_ok, sent, stored in *. rewrite !flat_map_app. cbn. rewrite !app_nil_r. exact A.
  - unfold fstep in H. cbn [f_dead f_c c_raw f_sc] in H. destruct (Nat.eqb n 0); [|discriminate H]. unfold c_msg in H. cbn [f_c c_st c_job set_sc] in H. destruct (U c f) eqn:EU.
    + destruct (put_file c _ f) as (s2, t2) eqn:E in H. inversion H; subst. apply (put_good _ v [] 0 D0 _ _ f (Pre_q v H0) E).
    + inversion H; subst. split; [reflexivity|]. split; [intros e [<-|[]]; split; [reflexivity|cbn; auto]|].
      exists D0, []. split; [apply (P_idle v [] 0 D0); constructor; exact H0|]. split; [|reflexivity]. intros t A. unfold ahead_ok, sent, stored in *. rewrite !flat_map_app. cbn. rewrite !app_nil_r. exact A.
  - unfold fstep in H. cbn [f_dead f_c c_raw f_sc] in H. destruct (Nat.eqb n 0); [|discriminate H]. unfold c_msg in H. cbn [f_c c_st c_job set_sc] in H. destruct (U c f) eqn:EU.
    + destruct (slice_part _ _ _ _ _ N I H1) as [IN PT]. unfold c_block in H. destruct (fb_read d o n0) as ((bl, p1), n1) eqn:FB. destruct (fb_read_good _ _ _ _ _ _ IN H2 FB) as (l & -> & LN & I1 & R). destruct l as [|b0 l]; [contradiction|].
      remember (b0 :: l) as bb. assert (HH : s1 = mk_f (mk_c BUSY (JPut f d p1) None (Some (mk_fb 0 d p1 n1))) v (map IB bb) [] false /\ t1 = []) by (subst bb; inversion H; auto). destruct HH as [-> ->].
      apply good0; [reflexivity|]. cbn [f_c f_v f_cs f_sc]. pose proof (rng_len _ _ _ IN) as LL. rewrite R, zlen_app in LL. rewrite (rng_len _ _ _ I1) in LL. eapply P_up; [exact I1|exact H3|lia|]. cbn [app]. rewrite <- R. exists d. auto.
    + inversion H; subst. split; [reflexivity|]. split; [intros e [<-|[]]; split; [reflexivity|cbn; auto]|].
      exists D0, []. split; [apply (P_idle v [] 0 D0); constructor; exact H3|]. split; [|reflexivity]. intros t A. unfold ahead_ok, sent, stored in *. rewrite !flat_map_app. cbn. rewrite !app_nil_r. exact A.
  - destruct r as [|b r]; [discriminate H|]. unfold fstep in H. cbn [f_dead f_c c_raw f_sc map r_left] in H. destruct (Z.leb_spec left 0); [lia|].
    destruct (fits _ n) eqn:E; [|discriminate H]. apply fits_le in E. cbn [r_left] in E. change (IB b :: map IB r) with (map IB (b :: r) : list (item answer)) in H. rewrite <- (app_nil_r (map IB (b :: r))) in H.
    destruct (bytes_at n _) as [(x, y)|] eqn:B; [|discriminate H]. apply (bytes_at_IB _ []) in B. destruct B as (B & r2 & R & ->). rewrite app_nil_r in H. cbn [more_raw r_left r_f r_o r_got c_st c_job c_up] in H.
    rewrite R in H1, H3. rewrite zlen_app in H1. pose proof (zlen_nonneg r2). pose proof (zlen_nonneg rem). destruct (Z.eqb_spec (left - zlen x) 0) as [Z|Z]; inversion H; subst.
    + assert (r2 = []) as -> by (apply zlen_0; lia). assert (rem = []) as -> by (apply zlen_0; lia). rewrite !app_nil_r in H3. split; [reflexivity|]. split; [intros e [<-|[]]; split; [reflexivity|exact H3]|].
      exists D0, []. cbn [f_c f_v f_cs f_sc set_c set_sc map]. split; [|split; [|reflexivity]].
      * apply (P_idle v [] 0 D0). destruct H0 as [V|[_ V]]; [apply Pre_d|apply Pre_q]; exact V.
      * intros t A. unfold ahead_ok, sent, stored in *. rewrite !flat_map_app. cbn. rewrite !app_nil_r. exact A.
    + apply good0; [reflexivity|]. cbn [f_c f_v f_cs f_sc set_c set_sc map]. rewrite app_nil_r. unfold more_raw. cbn [r_left r_f r_o r_got]. eapply P_down; [exact H0|lia|lia|]. rewrite <- app_assoc. rewrite <- app_assoc in H3. exact H3.
Qed.

Lemma inv_step s t x s1 t1 : inv s t -> own x = true -> prompt1 s x -> fstep c s x = Some (s1, t1) -> inv s1 (t ++ t1).
Proof.
  intros [D OK (a & w & P & A & W)] O PR H. destruct s as [k v cs sc dd]. cbn [f_dead f_c f_v f_cs f_sc] in *. subst dd.
  assert (G : good s1 t1 a w).
  { destruct (inner x) eqn:IX; [|exact (step_user _ _ _ _ _ _ _ _ _ P IX O H)]. destruct x; try discriminate IX; [exact (step_ctake _ _ _ _ _ _ _ _ _ P H)|exact (step_csent _ _ _ _ _ _ _ _ P H)|exact (step_stake _ _ _ _ _ _ _ _ _ P PR H)|exact (step_bg _ _ _ _ _ _ _ _ _ P (or_introl eq_refl) H)|exact (step_bg _ _ _ _ _ _ _ _ _ P (or_intror eq_refl) H)]. }
  destruct G as (G1 & G2 & a1 & w1 & G3 & G4 & G5). split; [exact G1| |].
  - intros e E. apply in_app_or in E. destruct E; auto.
  - exists a1, w1. split; [exact G3|]. split; [auto|]. unfold asked, ended in *. rewrite !flat_map_app, W, <- !app_assoc. f_equal. exact G5.
Qed.
Lemma inv_run : forall l s t s1 t1, inv s t -> Forall (fun x => own x = true) l -> prompt c s l -> frun c s l = Some (s1, t1) -> inv s1 (t ++ t1).
Proof.
  induction l as [|x l IH]; intros s t s1 t1 V O PR H; cbn [frun prompt] in *.
  - inversion H; subst. rewrite app_nil_r. exact V.
  - destruct PR as [P1 P2]. inversion O; subst. destruct (fstep c s x) as [(s2, t2)|] eqn:E; [|discriminate H]. destruct (frun c s2 l) as [(s3, t3)|] eqn:R; [|discriminate H]. inversion H; subst.
    rewrite app_assoc. eapply IH; eauto. eapply inv_step; eauto.
Qed.
Lemma inv_0 : inv f0 [].
Proof. split; [reflexivity|intros e []|]. exists D0, []. split; [apply (P_idle _ [] 0 D0); constructor; unfold Vq; cbn; repeat split; discriminate|]. split; reflexivity. Qed.
End Phases.

(** ** C152: transfers *)
(** the whole claim: whatever the order of events, nothing goes wrong, every transfer puts the right bytes in place, and when nothing happens any more every
    transfer asked for has ended and the server has written what the client has sent *)
Definition C152_statement : Prop := forall c l s t, cfg_ok c -> Forall (fun x => own x = true) l -> frun c f0 l = Some (s, t) ->
  (forall e, In e t -> harm e = false /\ exact_ev c e) /\
  ((forall a, inner a = true -> fstep c s a = None) -> c_st (f_c s) = IDLE /\ asked t = ended t /\ sent t = stored t).

Theorem C152_exact_partial : forall c l s t, cfg_ok c -> Forall (fun x => own x = true) l -> prompt c f0 l -> frun c f0 l = Some (s, t) -> forall e, In e t -> harm e = false /\ exact_ev c e.
Proof. intros c l s t CF O PR H. exact (i_ok _ _ _ (inv_run c CF l f0 [] s t (inv_0 c) O PR H)). Qed.
Print Assumptions C152_exact_partial.

(** ** coming to rest *)
Lemma rest_q c k v cs sc : at_rest c (mk_f k v cs sc false) -> v_send v = None.
Proof.
  intros R. destruct (v_send v) as [[x|]|] eqn:E; [| |reflexivity]; exfalso.
  - specialize (R SSent eq_refl Logic.I). unfold fstep in R. cbn [f_dead f_v] in R. rewrite E in R. destruct (v_sent _ x). discriminate R.
  - specialize (R SClear eq_refl Logic.I). unfold fstep in R. cbn [f_dead f_v] in R. rewrite E in R. discriminate R.
Qed.
Lemma rest_msg c k v m cs sc : at_rest c (mk_f k v (IM m :: cs) sc false) -> v_raw v = None -> False.
Proof.
  intros R E. pose proof (rest_q _ _ _ _ _ R) as Q. assert (P : prompt1 (mk_f k v (IM m :: cs) sc false) (STake 0)) by (cbn; destruct m; auto). specialize (R (STake 0) eq_refl P).
  unfold fstep in R. cbn [f_dead f_v f_cs] in R. rewrite E in R. cbn [Nat.eqb] in R. destruct (v_msg _ _ m). discriminate R.
Qed.
Lemma rest_raw c k v b cs sc f o left got : at_rest c (mk_f k v (IB b :: cs) sc false) -> Vup v f o left got -> False.
Proof.
  intros R V. specialize (R (STake 1) eq_refl Logic.I). apply Vup_raw in V. destruct V as [V L]. unfold fstep in R. cbn [f_dead f_v f_cs] in R. rewrite V in R. cbn [r_left] in R. destruct (Z.leb_spec left 0); [lia|].
  assert (fits (mk_raw f o left got) 1 = true) as E. { unfold fits. cbn [r_left]. apply andb_true_iff. split; [reflexivity|]. apply Z.leb_le. unfold XFER. lia. }
  rewrite E in R. cbn [bytes_at] in R. destruct (r_left _ =? 0) in R; discriminate R.
Qed.
Lemma rest_pre c v r a k cs sc : at_rest c (mk_f k v (map IB r ++ cs) sc false) -> Pre c v r a -> r = [] /\ Vq v /\ a = D0.
Proof.
  intros R P. pose proof (rest_q _ _ _ _ _ R) as Q. destruct P as [v V|v V|v f o left got r V L O]; auto; [exfalso; exact (Vdown_not_q _ _ V Q)|].
  exfalso. destruct r as [|b r]; [destruct V; unfold zlen in L; cbn in L; lia|]. cbn [map app] in R. exact (rest_raw _ _ _ _ _ _ _ _ _ _ R V).
Qed.
Theorem C152_at_rest_partial : forall c l s t, cfg_ok c -> Forall (fun x => own x = true) l -> prompt c f0 l -> frun c f0 l = Some (s, t) -> at_rest c s ->
  c_st (f_c s) = IDLE /\ asked t = ended t /\ sent t = stored t.
Proof.
  intros c l s t CF O PR H R. destruct (inv_run c CF l f0 [] s t (inv_0 c) O PR H) as [D OK (a & w & P & A & W)]. cbn [app] in *. destruct s as [k v cs sc dd]. cbn [f_dead f_c f_v f_cs f_sc] in *. subst dd.
  pose proof (rest_q _ _ _ _ _ R) as Q. destruct P.
  - destruct (rest_pre _ _ _ _ _ _ _ R H0) as (-> & V & ->). split; [reflexivity|]. rewrite app_nil_r in W. auto.
  - exfalso. destruct (rest_pre _ _ _ _ _ _ _ R H0) as (-> & V & ->). destruct k as [|k]; cbn [map app talks repeat] in R; apply rest_msg in R; try exact R; apply V.
  - exfalso. specialize (R (CTake 0) eq_refl Logic.I). unfold fstep in R. cbn [f_dead f_c c_raw f_sc Nat.eqb] in R. destruct (c_msg _ _ _). discriminate R.
  - exfalso. specialize (R (CTake 0) eq_refl Logic.I). unfold fstep in R. cbn [f_dead f_c c_raw f_sc Nat.eqb] in R. destruct (c_msg _ _ _). discriminate R.
  - exfalso. specialize (R (CTake 0) eq_refl Logic.I). unfold fstep in R. cbn [f_dead f_c c_raw f_sc Nat.eqb] in R. destruct (c_msg _ _ _). discriminate R.
  - exfalso. apply rest_msg in R; [exact R|apply H0].
  - exfalso. destruct r as [|b r].
    + destruct H0 as [V|[-> V]]; [exact (Vdown_not_q _ _ V Q)|]. unfold zlen in H1. cbn in H1. lia.
    + specialize (R (CTake 1) eq_refl Logic.I). unfold fstep in R. cbn [f_dead f_c c_raw f_sc map r_left] in R. destruct (Z.leb_spec left 0); [lia|].
      assert (fits (mk_raw f o left got) 1 = true) as E. { unfold fits. cbn [r_left]. apply andb_true_iff. split; [reflexivity|]. apply Z.leb_le. unfold XFER. lia. }
      rewrite E in R. cbn [bytes_at] in R. destruct (r_left _ =? 0) in R; discriminate R.
  - exfalso. specialize (R CSent eq_refl Logic.I). cbn in R. destruct (c_block _ _ _ _ _). discriminate R.
  - exfalso. specialize (R CSent eq_refl Logic.I). cbn in R. destruct (c_block _ _ _ _ _). discriminate R.
Qed.
Print Assumptions C152_at_rest_partial.

(** ** without the user it comes to rest *)
Definition zn (n : Z) : nat := Z.to_nat n.
Definition wO1 (n : Z) : nat := 5 * zn n + 8.
Definition wR0 (c : fcfg) (len : Z) : nat := if len =? -1 then 1 else wO1 (snd (slice len (num c) (idx c))) + 1.
Definition wR11 (n : Z) : nat := 5 * zn n + 4.
Definition wO11 (n : Z) : nat := wR11 n + 4.
Definition wPut (c : fcfg) (f : nat) : nat := match C c f with Some d => wO11 (snd (slice (zlen d) (num c) (idx c))) | None => 0 end.
Definition wR (c : fcfg) (r : answer) : nat := match r with R0 len => wR0 c len | R10 _ f => wPut c f + 1 | R11 n _ => wR11 n end.
Definition wO (c : fcfg) (m : order) : nat :=
  match m with
  | O0 f => 4 + wR0 c (match F c f with Some d => zlen d | None => -1 end)
  | O1 _ n => wO1 n
  | O2 => 1
  | O10 f => 5 + wPut c f
  | O11 _ n _ => wO11 n
  end.
Definition wi {M} (w : M -> nat) (x : item M) : nat := match x with IM m => w m | IB _ => 1 end.
Definition wis {M} (w : M -> nat) (l : list (item M)) : nat := list_sum (map (wi w) l).
(** a message of the server before it is written *)
Definition wx (c : fcfg) (x : out) : nat := match x with OMsg r => wR c r | OBlk d b => length d + 5 * zn (b_total b) end.
Definition wsend (x : option sph) : nat := match x with None => 0 | Some SEnd => 1 | Some (SOut (OMsg _)) => 2 | Some (SOut (OBlk _ b)) => 2 + 5 * zn (b_total b) end.
Definition wq (c : fcfg) (q : list out) : nat := list_sum (map (fun x => 3 + wx c x)%nat q).
Definition wc (k : cli) : nat := match c_up k with Some b => 2 + 5 * zn (b_total b) | None => 0 end.
Definition meas (c : fcfg) (s : fst) : nat :=
  if f_dead s then 0 else S (wis (wO c) (f_cs s) + wis (wR c) (f_sc s) + wsend (v_send (f_v s)) + wq c (v_q (f_v s)) + wc (f_c s)).
Lemma wis_app {M} (w : M -> nat) a b : wis w (a ++ b) = (wis w a + wis w b)%nat.
Proof. unfold wis. rewrite map_app, list_sum_app. reflexivity. Qed.
Lemma wis_IB {M} (w : M -> nat) r : wis w (map IB r) = length r.
Proof. unfold wis. induction r; [reflexivity|]. cbn [map length]. change (S (list_sum (map (wi w) (map IB r))) = S (length r)). rewrite IHr. reflexivity. Qed.
Lemma wis_cons {M} (w : M -> nat) x l : wis w (x :: l) = (wi w x + wis w l)%nat.
Proof. reflexivity. Qed.
Lemma wis_nil {M} (w : M -> nat) : wis w [] = 0%nat.
Proof. reflexivity. Qed.
Lemma wq_nil c : wq c [] = 0%nat.
Proof. reflexivity. Qed.
Lemma wq_app c a b : wq c (a ++ b) = (wq c a + wq c b)%nat.
Proof. unfold wq. rewrite map_app, list_sum_app. reflexivity. Qed.
Lemma wq_cons c x q : wq c (x :: q) = (3 + wx c x + wq c q)%nat.
Proof. reflexivity. Qed.
Lemma fb_read_size d p n l p1 n1 : fb_read d p n = (Some l, p1, n1) -> (zn n = length l + zn n1)%nat /\ (0 < n -> (0 < length l)%nat).
Proof.
  unfold fb_read. intros H. destruct (Z.leb_spec n 0); [inversion H; subst; cbn; split; [reflexivity|lia]|]. remember (if XFER <? n then XFER else n) as k.
  assert (K : 0 < k <= n) by (subst k; destruct (Z.ltb_spec XFER n); unfold XFER in *; lia). destruct (Z.eqb_spec (zlen (ztake k (zdrop p d))) k) as [E|E]; inversion H; subst l p1 n1. unfold zlen in E. unfold zn. lia.
Qed.
Lemma bytes_at_size {M} (w : M -> nat) : forall n l d y, bytes_at n l = Some (d, y) -> wis w l = (length d + wis w y)%nat /\ length d = n.
Proof.
  induction n as [|n IH]; intros l d y H; cbn in H; [inversion H; subst; auto|]. destruct l as [|[m|b] l]; try discriminate. destruct (bytes_at n l) as [(d', y')|] eqn:E; [|discriminate]. inversion H; subst.
  destruct (IH _ _ _ E) as [A B]. rewrite wis_cons, A. cbn. lia.
Qed.
Lemma wput c x v : v_send v = None -> forall s, f_dead s = false ->
  meas c (v_put s v x) = S (wis (wO c) (f_cs s) + wis (wR c) (f_sc s) + wx c x + 2 + wq c (v_q v) + wc (f_c s)).
Proof.
  intros N s D. unfold v_put. rewrite N. unfold meas, set_sc, set_v. cbn [f_dead f_cs f_sc f_v f_c v_send v_q]. rewrite D, wis_app. destruct x as [r|d b]; cbn [bytes_of wsend wx].
  - rewrite wis_cons, wis_nil. cbn [wi]. lia.
  - rewrite wis_IB. lia.
Qed.
Lemma wput2 c x v y : v_send v = Some y -> forall s, f_dead s = false ->
  meas c (v_put s v x) = S (wis (wO c) (f_cs s) + wis (wR c) (f_sc s) + wx c x + 3 + wsend (Some y) + wq c (v_q v) + wc (f_c s)).
Proof.
  intros N s D. unfold v_put. rewrite N. unfold meas, set_v. cbn [f_dead f_cs f_sc f_v f_c v_send v_q]. rewrite D, wq_app, wq_cons, wq_nil. lia.
Qed.
Lemma put_file_size c s f s1 t1 : put_file c s f = (s1, t1) -> f_dead s1 = f_dead s /\ f_sc s1 = f_sc s /\ f_v s1 = f_v s /\ wc (f_c s1) = 0%nat /\ (wis (wO c) (f_cs s1) <= wis (wO c) (f_cs s) + wPut c f)%nat.
Proof.
  unfold put_file, wPut. intros H. destruct (C c f) as [d|]; [|inversion H; subst; cbn; auto with arith]. destruct (slice _ _ _) as (o, n). destruct (0 <? n); inversion H; subst; cbn [f_dead f_sc f_v f_c f_cs ask set_cs set_c snd].
  - rewrite wis_app, wis_cons, wis_nil. cbn [wi wO]. repeat split; auto. lia.
  - cbn. repeat split; auto. lia.
Qed.
Lemma c_block_size c s f d p n s1 t1 : c_block s f d p n = (s1, t1) -> f_dead s1 = f_dead s /\ f_sc s1 = f_sc s /\ f_v s1 = f_v s /\ (wis (wO c) (f_cs s1) + wc (f_c s1) <= wis (wO c) (f_cs s) + 5 * zn n)%nat.
Proof.
  unfold c_block. intros H. destruct (fb_read d p n) as (([l|], p1), n1) eqn:E; [destruct l as [|b l]|]; inversion H; subst; cbn [f_dead f_sc f_v f_c f_cs set_cs set_c c_idle wc c_up]; try (repeat split; auto; lia).
  destruct (fb_read_size _ _ _ _ _ _ E) as [A _]. rewrite wis_app, wis_cons. change (map (@IB order) l) with (map (@IB order) l). rewrite wis_IB. cbn [wi b_total length] in *. repeat split; auto. lia.
Qed.
Theorem C152_comes_to_rest : forall c s, Acc (onward c) s.
Proof.
  intros c s. apply (Wf_nat.well_founded_lt_compat fst (meas c)). clear s. intros s1 s (x & t & IX & H). unfold fstep in H. destruct (f_dead s) eqn:D; [discriminate H|].
  assert (DIE : (meas c (die s) < meas c s)%nat) by (unfold meas; cbn [die f_dead]; rewrite D; lia).
  destruct x; try discriminate IX.
  - (* the client receives *)
    destruct (c_raw (f_c s)) as [r|] eqn:RW; destruct (f_sc s) as [|[m|b] l] eqn:SC; try discriminate H; try (inversion H; subst; exact DIE).
    + destruct (r_left r <=? 0); [inversion H; subst; exact DIE|]. destruct (fits r n) eqn:E; [|discriminate H]. apply fits_le in E. destruct (bytes_at n _) as [(d, y)|] eqn:B; [|discriminate H]. apply (bytes_at_size (wR c)) in B. destruct B as [B1 B2].
      destruct (r_left (more_raw r d) =? 0); inversion H; subst; unfold meas, set_c, set_sc; cbn [f_dead f_cs f_sc f_v f_c]; rewrite D, SC, B1; unfold wc; cbn [c_idle c_up]; destruct (c_up (f_c s)); lia.
    + destruct (Nat.eqb n 0); [|discriminate H]. inversion H as [H1]. clear H. unfold meas at 2. rewrite D, SC, wis_cons. cbn [wi]. unfold c_msg in H1. cbn [f_c set_sc] in H1.
      assert (Z0 : (meas c (set_c (set_sc s l) c_idle) <= S (wis (wO c) (f_cs s) + wis (wR c) l + wsend (v_send (f_v s)) + wq c (v_q (f_v s))))%nat)
        by (unfold meas, set_c, set_sc; cbn [f_dead f_cs f_sc f_v f_c]; rewrite D; cbn; lia).
      assert (Z1 : (meas c (set_sc s l) <= S (wis (wO c) (f_cs s) + wis (wR c) l + wsend (v_send (f_v s)) + wq c (v_q (f_v s)) + wc (f_c s)))%nat)
        by (unfold meas, set_sc; cbn [f_dead f_cs f_sc f_v f_c]; rewrite D; lia).
      assert (WP : (0 < wR c m)%nat) by (destruct m; cbn [wR]; unfold wR0, wR11, wO1; try destruct (len =? -1); lia).
      assert (Z2 : meas c (die (set_sc s l)) = 0%nat) by reflexivity.
      destruct (c_st (f_c s)).
      { destruct m; inversion H1; subst; lia. }
      2: { destruct (nd c); inversion H1; subst; lia. }
      destruct m as [len|ok f'|n' ok]; destruct (c_job (f_c s)) as [|f|f|f d pos]; try (inversion H1; subst; lia); cbn [wR] in *.
      * unfold wR0 in *. destruct (len =? -1); [inversion H1; subst; lia|]. destruct (slice len (num c) (idx c)) as (o, k) eqn:S. cbn [snd] in *. destruct (0 <? k); inversion H1; subst; [|lia].
        unfold meas, ask, set_cs, set_c, set_sc. cbn [f_dead f_cs f_sc f_v f_c]. rewrite D, wis_app, wis_cons, wis_nil. cbn [wi wO wc c_up]. lia.
      * destruct ok; [|inversion H1; subst; lia]. destruct (put_file_size _ _ _ _ _ H1) as (P1 & P2 & P3 & P4 & P5). unfold meas. rewrite P1, P2, P3, P4. cbn [set_sc f_dead f_cs f_sc f_v f_c] in *. rewrite D. lia.
      * destruct ok; [|inversion H1; subst; lia]. destruct (c_block_size c _ _ _ _ _ _ _ H1) as (P1 & P2 & P3 & P5). unfold meas. rewrite P1, P2, P3. cbn [set_sc f_dead f_cs f_sc f_v f_c] in *. rewrite D. unfold wR11 in *. lia.
  - (* the client's block is written *)
    destruct (c_up (f_c s)) as [b|] eqn:UP; [|discriminate H]. destruct (c_job (f_c s)); try discriminate H. inversion H as [H1]. destruct (c_block_size c _ _ _ _ _ _ _ H1) as (P1 & P2 & P3 & P5).
    unfold meas. rewrite P1, P2, P3. cbn [set_c f_dead f_cs f_sc f_v f_c] in *. rewrite D. unfold wc at 2. rewrite UP. lia.
  - (* the server receives *)
    destruct (v_raw (f_v s)) as [r|] eqn:RW; destruct (f_cs s) as [|[m|b] l] eqn:CS; try discriminate H; try (inversion H; subst; exact DIE).
    + destruct (r_left r <=? 0); [inversion H; subst; exact DIE|]. destruct (fits r n) eqn:E; [|discriminate H]. apply fits_le in E. destruct (bytes_at n _) as [(d, y)|] eqn:B; [|discriminate H]. apply (bytes_at_size (wO c)) in B. destruct B as [B1 B2].
      destruct (r_left (more_raw r d) =? 0); inversion H; subst; unfold meas, set_v, set_cs, v_end; cbn [f_dead f_cs f_sc f_v f_c v_send v_q]; rewrite D, CS, B1; lia.
    + destruct (Nat.eqb n 0); [|discriminate H]. inversion H as [H1]. clear H. unfold meas at 2. rewrite D, CS, wis_cons. cbn [wi]. unfold v_msg in H1. cbn [f_v set_cs] in H1.
      assert (WP : (0 < wO c m)%nat) by (destruct m; cbn [wO]; unfold wO11, wR11, wO1; lia).
      assert (Z1 : (meas c (set_cs s l) <= S (wis (wO c) l + wis (wR c) (f_sc s) + wsend (v_send (f_v s)) + wq c (v_q (f_v s)) + wc (f_c s)))%nat)
        by (unfold meas, set_cs; cbn [f_dead f_cs f_sc f_v f_c]; rewrite D; lia).
      assert (Z0 : (meas c (set_v (set_cs s l) (v_end (f_v s) true)) <= S (wis (wO c) l + wis (wR c) (f_sc s) + wsend (v_send (f_v s)) + wq c (v_q (f_v s)) + wc (f_c s)))%nat)
        by (unfold meas, set_v, set_cs, v_end; cbn [f_dead f_cs f_sc f_v f_c v_send v_q]; rewrite D; lia).
      assert (Z2 : meas c (die (set_cs s l)) = 0%nat) by reflexivity.
      assert (PUT : forall v x, v_send v = v_send (f_v s) -> v_q v = v_q (f_v s) -> (wx c x + 3 < wO c m)%nat \/ (wx c x + 2 < wO c m)%nat /\ v_send v = None ->
        (meas c (v_put (set_cs s l) v x) < S (wO c m + wis (wO c) l + wis (wR c) (f_sc s) + wsend (v_send (f_v s)) + wq c (v_q (f_v s)) + wc (f_c s)))%nat).
      { intros v x E1 E2 W. destruct (v_send v) as [y|] eqn:Y.
        - rewrite (wput2 c x v y Y (set_cs s l)) by exact D. unfold set_cs. cbn [f_cs f_sc f_c]. rewrite E2, <- E1. destruct W as [W|[W Z]]; [lia|discriminate Z].
        - rewrite (wput c x v Y (set_cs s l)) by exact D. unfold set_cs. cbn [f_cs f_sc f_c]. rewrite E2, <- E1. cbn [wsend]. lia. }
      destruct (v_st (f_v s)) eqn:ST.
      3: { destruct (nd c); inversion H1; subst; lia. }
      1: destruct m as [f|o k| |f|o k f].
      6: destruct m as [f|o k| |f|o k f].
      all: try (inversion H1; subst; lia).
      all: try (destruct (sending (f_v s)) eqn:SD; [inversion H1; subst; lia|]; unfold sending in SD; destruct (v_send (f_v s)) eqn:VS; [discriminate SD|]).
      1, 4: (destruct (F c f) as [d|] eqn:EF; inversion H1; subst; apply PUT; auto; right; split; auto; cbn [wx wR wO]; rewrite EF; lia).
      1, 4: (inversion H1; subst; apply PUT; auto; right; split; auto; cbn [wx wR wO]; lia).
      1, 3: (destruct (U c f); inversion H1; subst; apply PUT; auto; right; split; auto; cbn [wx wR wO]; unfold wO11; lia).
      destruct (v_file (f_v s)) as [(h, d)|]; [|inversion H1; subst; lia]. destruct (server_accepts _ _ _) as [[]|]; try (inversion H1; subst; lia). destruct (fb_read d o k) as (([bl|], p), r) eqn:E; inversion H1; subst; [|lia].
      apply PUT; auto. left. destruct (fb_read_size _ _ _ _ _ _ E) as [A _]. cbn [wx wO b_total]. unfold wO1. lia.
  - (* the server's write is completed *)
    destruct (v_send (f_v s)) as [[x|]|] eqn:VS; try discriminate H. inversion H as [H1]. clear H. unfold v_sent in H1. unfold meas at 2. rewrite D, VS. destruct x as [r|d b].
    + inversion H1; subst. unfold meas, set_v. cbn [f_dead f_cs f_sc f_v f_c v_send v_q wsend]. rewrite D. lia.
    + destruct (Z.leb_spec (b_total b) 0); [inversion H1; subst; unfold meas, set_v; cbn [f_dead f_cs f_sc f_v f_c v_send v_q wsend v_end]; rewrite D; lia|].
      destruct (match v_file (f_v s) with Some _ => _ | None => _ end); [|inversion H1; subst; unfold meas; cbn [die f_dead]; lia].
      destruct (fb_read (b_file b) (b_pos b) (b_total b)) as (([bl|], p), r) eqn:E; inversion H1; subst; unfold meas, set_v; cbn [f_dead f_cs f_sc f_v f_c v_send v_q wsend v_end]; rewrite D; [|lia].
      rewrite wq_app, wq_cons, wq_nil. cbn [wx b_total]. destruct (fb_read_size _ _ _ _ _ _ E) as [A B]. specialize (B H). lia.
  - (* the flag is cleared *)
    destruct (v_send (f_v s)) as [[x|]|] eqn:VS; try discriminate H. inversion H; subst. unfold v_clear. unfold meas at 2. rewrite D, VS. destruct (v_q (f_v s)) as [|x q] eqn:Q.
    + unfold meas, set_v. cbn [f_dead f_cs f_sc f_v f_c v_send v_q wsend]. rewrite D. lia.
    + unfold meas, set_sc, set_v. cbn [f_dead f_cs f_sc f_v f_c v_send v_q]. rewrite D, wis_app, wq_cons. destruct x as [r|d b]; cbn [bytes_of wsend wx]; [rewrite wis_cons, wis_nil; cbn [wi]|rewrite wis_IB]; lia.
Qed.
Print Assumptions C152_comes_to_rest.

(** ** the claim is false: the next order can come before the server knows that its last write is completed *)
Definition ex_files (f : nat) : option (list byte) := match f with O => Some [x01; x02; x03] | _ => None end.
Definition ex_mine (f : nat) : option (list byte) := match f with 7%nat => Some [x0a; x0b; x0c; x0d] | _ => None end.
Definition ex_cfg (ndebug : bool) : fcfg := mk_fc ndebug 1 0 ex_files ex_mine (fun f => Nat.eqb f 7).
Lemma ex_ok ndebug : cfg_ok (ex_cfg ndebug).
Proof.
  split; [reflexivity|]. split; [cbn; lia|]. split; intros f d H; cbn in H; [destruct f; inversion H; reflexivity|]. do 8 (destruct f; try discriminate H). inversion H. reflexivity.
Qed.
(** a download, and another one begun when the last byte is there: the server takes the order for the end of the transfer *)
Definition ex_late : list fact := [CGet 0; STake 0; SSent; SClear; CTake 0; STake 0; CTake 3; CGet 0; STake 0].
(** a file that does not exist, then one that does: the order is ignored *)
Definition ex_ignored : list fact := [CGet 9; STake 0; CTake 0; CGet 0; STake 0; SSent; SClear].
Lemma stuck c s : f_dead s = false -> f_cs s = [] -> f_sc s = [] -> v_send (f_v s) = None -> c_up (f_c s) = None -> forall a, inner a = true -> fstep c s a = None.
Proof. intros A B D E G a I. unfold fstep. rewrite A, B, D, E, G. destruct a; try discriminate I; try reflexivity; [destruct (c_raw (f_c s))|destruct (v_raw (f_v s))]; reflexivity. Qed.
Theorem C152_refuted :
  (exists s t, frun (ex_cfg false) f0 ex_late = Some (s, t) /\ t = [EGet 0; EGot 0 0 [x01; x02; x03]; EGet 0; EAbort]) /\
  (exists s t, frun (ex_cfg true) f0 (ex_late ++ [SSent; SClear]) = Some (s, t) /\ t = [EGet 0; EGot 0 0 [x01; x02; x03]; EGet 0; EDropped (O0 0)] /\ c_st (f_c s) = PREPARE /\
     forall a, inner a = true -> fstep (ex_cfg true) s a = None) /\
  (forall n, exists s t, frun (ex_cfg n) f0 ex_ignored = Some (s, t) /\ t = [EGet 9; ENoGet 9; EGet 0; EIgnored (O0 0)] /\ c_st (f_c s) = PREPARE /\ forall a, inner a = true -> fstep (ex_cfg n) s a = None).
Proof.
  split; [do 2 eexists; split; [vm_compute; reflexivity|reflexivity]|]. split.
  - do 2 eexists. split; [vm_compute; reflexivity|]. split; [reflexivity|]. split; [reflexivity|]. apply stuck; reflexivity.
  - intros n. do 2 eexists. split; [cbv; reflexivity|]. split; [reflexivity|]. split; [reflexivity|]. apply stuck; reflexivity.
Qed.
Print Assumptions C152_refuted.
Theorem C152_statement_refuted : ~ C152_statement.
Proof.
  intros S. destruct C152_refuted as (_ & (s & t & R & E & P & Q) & _). assert (OW : Forall (fun x => own x = true) (ex_late ++ [SSent; SClear])) by repeat constructor. destruct (S _ _ _ _ (ex_ok true) OW R) as [_ X]. destruct (X Q) as [X1 _]. congruence.
Qed.
Print Assumptions C152_statement_refuted.
(** downloads of a file that is there and of one that is not, an upload, talking *)
Definition ex_session : list fact :=
  [CTalk; CGet 0; STake 0; STake 0; SSent; CTake 0; STake 0; SClear; CTake 2; SSent; CTake 1; CTalk; SClear; CGet 5; STake 0; STake 0; SSent; CTake 0; SClear;
   CTrunc 7; STake 0; SSent; SClear; CTake 0; STake 0; CTake 0; STake 3; CSent; CGet 0; STake 1; SSent; SClear; STake 0; SSent; SClear; CTake 0; STake 0; CTake 3; SSent; SClear].
Example C152_ex : exists s t, frun (ex_cfg false) f0 ex_session = Some (s, t) /\ prompt (ex_cfg false) f0 ex_session /\ Forall (fun x => own x = true) ex_session /\
  t = [EGet 0; EGot 0 0 [x01; x02; x03]; EGet 5; ENoGet 5; EPut 7; ESent 7; EGet 0; EStored 7 0 [x0a; x0b; x0c; x0d]; EGot 0 0 [x01; x02; x03]] /\ at_rest (ex_cfg false) s.
Proof.
  do 2 eexists. split; [vm_compute; reflexivity|]. split; [vm_compute; repeat split|]. split; [repeat constructor|]. split; [reflexivity|]. intros a I _. apply stuck; try exact I; reflexivity.
Qed.
(** the second of two links gets the second half *)
Example C152_part_ex : exists s t, frun (mk_fc false 2 1 ex_files ex_mine (fun f => Nat.eqb f 7)) f0
  [CGet 0; STake 0; SSent; SClear; CTake 0; STake 0; SSent; SClear; CTake 2; CPut 7; STake 0; CTake 0; SSent; SClear; STake 2; CSent] = Some (s, t) /\
  t = [EGet 0; EGot 0 1 [x02; x03]; EPut 7; EStored 7 2 [x0c; x0d]; ESent 7].
Proof. do 2 eexists. split; vm_compute; reflexivity. Qed.
Example C152_comes_to_rest_ex : exists s2 s1 s t, frun (ex_cfg true) f0 [CGet 0] = Some (s, t) /\ onward (ex_cfg true) s1 s /\ onward (ex_cfg true) s2 s1.
Proof.
  do 4 eexists. split; [vm_compute; reflexivity|]. split; [exists (STake 0)|exists SSent]; eexists; (split; [reflexivity|]); vm_compute; reflexivity.
Qed.

(** ** C153: a server and whatever clients send *)
Definition C153_statement : Prop := forall c l s t, cfg_ok c -> Forall (fun x => serving x = true) l -> frun c f0 l = Some (s, t) -> forall e, In e t -> crash e = false.
Definition crashed (c : fcfg) (l : list fact) : list fev := match frun c f0 l with Some (_, t) => t | None => [] end.
(** a file of more than one block *)
Definition big_cfg : fcfg := mk_fc true 1 0 (fun f => match f with O => Some (repeat x00 (Z.to_nat 65537)) | _ => None end) (fun _ => None) (fun _ => true).
Definition ord (m : order) : fact := CForeign (IM m).
Definition ex_attacks : list (fcfg * list fact * fev) :=
  [ (ex_cfg false, [ord (O0 0); STake 0; SSent; SClear; ord (O1 0 3); STake 0; ord O2; STake 0], EAbort);          (* talking during a download *)
    (big_cfg, [ord (O0 0); STake 0; SSent; SClear; ord (O1 0 65537); STake 0; ord O2; STake 0; SSent], EClosed);    (* the same without assertions *)
    (ex_cfg true, [ord (O0 0); STake 0; SSent; SClear; ord (O1 1 (OFF_RANGE - 1)); STake 0], EOverflow);            (* the end of the range overflows *)
    (ex_cfg true, [ord (O11 0 0 7); STake 0; CForeign (IB x01); STake 1], EOverflow);                               (* an upload of nothing *)
    (ex_cfg true, [ord (O11 0 (-5) 7); STake 0; CForeign (IB x01); STake 1], EOverflow) ].                          (* ... of a negative length: C55 *)
Theorem C153_refuted : forall c l e, In (c, l, e) ex_attacks -> Forall (fun x => serving x = true) l /\ crash e = true /\ last (crashed c l) (EGet 0) = e.
Proof.
  assert (A : Forall (fun x => Forall (fun y => serving y = true) (snd (Datatypes.fst x)) /\ crash (snd x) = true /\ last (crashed (Datatypes.fst (Datatypes.fst x)) (snd (Datatypes.fst x))) (EGet 0) = snd x) ex_attacks).
  { unfold ex_attacks. repeat (apply Forall_cons; [cbn [Datatypes.fst snd]; split; [repeat constructor|split; [reflexivity|vm_compute; reflexivity]]|]). constructor. }
  intros c l e H. rewrite Forall_forall in A. exact (A _ H).
Qed.
Print Assumptions C153_refuted.
Theorem C153_statement_refuted : ~ C153_statement.
Proof.
  intros S. set (l := [ord (O0 0); STake 0; SSent; SClear; ord (O1 0 3); STake 0; ord O2; STake 0]). assert (A : Forall (fun x => serving x = true) l) by repeat constructor.
  assert (R : exists s, frun (ex_cfg false) f0 l = Some (s, [EAbort])) by (eexists; vm_compute; reflexivity). destruct R as (s & R).
  pose proof (S _ _ _ _ (ex_ok false) A R EAbort (or_introl eq_refl)). discriminate.
Qed.
Print Assumptions C153_statement_refuted.

Definition calm (v : srv) : Prop := Vq v \/ (exists rem, Vdown v rem) \/ (exists f o left got, Vup v f o left got).
Lemma calm_step c s a s1 t1 : calm (f_v s) -> serving a = true -> mannered1 s a -> fstep c s a = Some (s1, t1) -> calm (f_v s1) /\ forall e, In e t1 -> crash e = false.
Proof.
  intros V SV M H. destruct a; try discriminate SV.
  - unfold fstep in H. destruct (f_dead s); [discriminate H|]. destruct (v_raw (f_v s)) as [r|] eqn:RW; destruct (f_cs s) as [|[m|b] l] eqn:CS; try discriminate H.
    + inversion H; subst. split; [exact V|]. intros e [<-|[]]; reflexivity.
    + assert (VU : exists f o left got, Vup (f_v s) f o left got). { destruct V as [V|[(rem & V)|V]]; [destruct V as (_ & V & _); congruence|apply Vdown_st in V; congruence|exact V]. }
      destruct VU as (f & o & left & got & VU). destruct (f_v s) as [st fl nx rw sd q] eqn:FV. inversion VU; subst. cbn [v_raw] in RW. inversion RW; subst r. cbn [r_left] in H. destruct (Z.leb_spec left 0); [lia|].
      destruct (fits _ n) eqn:E; [|discriminate H]. apply fits_le in E. cbn [r_left] in E. destruct (bytes_at n _) as [(d, y)|] eqn:B; [|discriminate H]. apply (bytes_at_size (fun _ => 0%nat)) in B. destruct B as [_ B].
      cbn [more_raw r_left r_f r_o r_got] in H. destruct (Z.eqb_spec (left - zlen d) 0) as [ZE|ZE]; inversion H; subst; cbn [f_v set_v].
      * split; [left; unfold Vq, v_end; cbn; split; [discriminate|auto]|]. intros e [<-|[]]; reflexivity.
      * split; [|intros e []]. right. right. exists f, o, (left - zlen d), (got ++ d). unfold more_raw. cbn [r_left r_f r_o r_got v_st v_file v_next v_send v_q]. constructor; [assumption|]. unfold zlen in *. lia.
    + destruct (Nat.eqb n 0); [|discriminate H]. cbn [mannered1] in M. rewrite RW, CS in M. destruct M as [NS M].
      assert (VQ : Vq (f_v s)). { destruct V as [V|[(rem & V)|(f & o & left & got & V)]]; [exact V|exfalso; exact (Vdown_not_q _ _ V NS)|apply Vup_raw in V; destruct V; congruence]. }
      destruct s as [k v cs sc dd]. cbn [f_v f_cs] in *. destruct v as [st fl nx rw sd q]. destruct VQ as (A & B & D & E). cbn [v_st v_raw v_q v_send] in *. subst rw q sd. clear V.
      unfold v_msg, set_cs in H. cbn [f_v v_st f_c f_cs f_sc f_dead] in H.
      assert (Q : forall s2, f_v s2 = mk_v st fl nx None None [] -> calm (f_v s2)) by (intros s2 ->; left; unfold Vq; cbn; auto).
      destruct m as [f|o k0| |f|o k0 f]; cbn [sending v_send v_file v_end] in H.
      * destruct st; try contradiction; destruct (F c f); inversion H; subst; (split; [|intros e []]); left; unfold Vq; cbn; repeat split; discriminate.
      * destruct st; try contradiction; [inversion H; subst; split; [apply Q; reflexivity|intros e []]|]. destruct fl as [(h, d)|]; [|inversion H; subst; split; [apply Q; reflexivity|intros e []]].
        destruct (C54_refused (zlen d) o k0 M) as [AC [X|X]]; rewrite X in H.
        { assert (IN : inside d o k0 /\ 0 < k0) by (apply AC in X; unfold inside; lia). destruct IN as [IN LK]. destruct (fb_read d o k0) as ((bl, p1), n1) eqn:FB. destruct (fb_read_good _ _ _ _ _ _ IN LK FB) as (l2 & -> & LN & I1 & R).
          inversion H; subst. split; [|intros e []]. right. left. eexists. cbn. constructor. exact I1. }
        { inversion H; subst. split; [|intros e []]. left. unfold Vq. cbn. repeat split; discriminate. }
      * destruct st; try contradiction; inversion H; subst; (split; [apply Q; reflexivity|intros e []]).
      * destruct st; try contradiction; inversion H; subst; (split; [|intros e []]); left; unfold Vq; cbn; repeat split; discriminate.
      * destruct st; try contradiction; destruct (U c f); inversion H; subst; (split; [|intros e []]); first [left; unfold Vq; cbn; repeat split; discriminate | right; right; exists f, o, k0, []; cbn; constructor; [exact Logic.I|exact M]].
    + inversion H; subst. split; [exact V|]. intros e [<-|[]]; reflexivity.
  - destruct V as [V|[(rem & V)|(f & o & left & got & V)]].
    + destruct (Vq_bg c _ _ _ _ V (or_introl eq_refl) H) as (v1 & -> & -> & V1 & _). split; [left; exact V1|intros e []].
    + destruct (Vdown_bg c _ _ _ _ _ V (or_introl eq_refl) H) as (v1 & new & rem1 & -> & -> & _ & [K|[_ K]]); (split; [|intros e []]); [right; left; exists rem1; exact K|left; exact K].
    + destruct (Vup_bg c _ _ _ _ _ _ _ _ V (or_introl eq_refl) H) as (v1 & -> & -> & V1). split; [|intros e []]. right. right. do 4 eexists. exact V1.
  - destruct V as [V|[(rem & V)|(f & o & left & got & V)]].
    + destruct (Vq_bg c _ _ _ _ V (or_intror eq_refl) H) as (v1 & -> & -> & V1 & _). split; [left; exact V1|intros e []].
    + destruct (Vdown_bg c _ _ _ _ _ V (or_intror eq_refl) H) as (v1 & new & rem1 & -> & -> & _ & [K|[_ K]]); (split; [|intros e []]); [right; left; exists rem1; exact K|left; exact K].
    + destruct (Vup_bg c _ _ _ _ _ _ _ _ V (or_intror eq_refl) H) as (v1 & -> & -> & V1). split; [|intros e []]. right. right. do 4 eexists. exact V1.
  - unfold fstep in H. destruct (f_dead s); [discriminate H|]. inversion H; subst. split; [exact V|intros e []].
Qed.
Theorem C153_partial : forall c l s t, Forall (fun x => serving x = true) l -> mannered c f0 l -> frun c f0 l = Some (s, t) -> forall e, In e t -> crash e = false.
Proof.
  intros c l. assert (V : calm (f_v f0)) by (left; unfold Vq; cbn; repeat split; discriminate). revert V. generalize f0. induction l as [|x l IH]; intros s0 V s t SV M H e I; cbn [frun mannered] in *; [inversion H; subst; contradiction|].
  destruct M as [M1 M2]. inversion SV; subst. destruct (fstep c s0 x) as [(s2, t2)|] eqn:E; [|discriminate H]. destruct (frun c s2 l) as [(s3, t3)|] eqn:R; [|discriminate H]. inversion H; subst.
  destruct (calm_step _ _ _ _ _ V H2 M1 E) as [V2 K]. apply in_app_or in I. destruct I as [I|I]; [auto|]. exact (IH _ V2 _ _ H3 M2 R e I).
Qed.
Print Assumptions C153_partial.
(** several orders of a client of somebody else: a second request instead of the contents, a range outside the file, an upload *)
Definition ex_guest : list fact :=
  [ord (O0 0); STake 0; SSent; SClear; ord (O0 0); STake 0; SSent; SClear; ord (O1 2 5); STake 0; ord (O1 0 3); STake 0; ord (O0 0); STake 0; SSent; SClear; ord (O1 1 2); STake 0; SSent; SClear;
   ord (O11 4 2 7); STake 0; CForeign (IB x0a); CForeign (IB x0b); STake 1; SSent; SClear; STake 1; ord O2; STake 0].
Example C153_ex : exists s t, frun (ex_cfg false) f0 ex_guest = Some (s, t) /\ mannered (ex_cfg false) f0 ex_guest /\ Forall (fun x => serving x = true) ex_guest /\ t = [EStored 7 4 [x0a; x0b]] /\
  f_sc s = [IM (R0 3); IM (R0 3); IM (R0 3); IB x02; IB x03; IM (R11 2 true)].
Proof. do 2 eexists. split; [vm_compute; reflexivity|]. split; [vm_compute; repeat split; reflexivity|]. split; [repeat constructor|]. split; reflexivity. Qed.
