(** C45-C48, C70: where objects and threads are placed, and how threads are taken away. *)
From Coq Require Import List NArith ZArith Bool Arith Lia ZifyBool ZifyNat ZifyN.
From Verif Require Import M_Pump S_Pump L_Pump.
Import ListNotations.
Open Scope N_scope.

(** ** C45: the least loaded io_context is chosen *)
Theorem C45_least_loaded p : single p = false -> ctxs p <> [] ->
  exists k p1, assign p = Some (k, p1) /\ first_least (ctxs p) k /\
    (forall j, nth_error (ctxs p1) j = if (j =? k)%nat then option_map (fun x => (x + 1) mod W32) (nth_error (ctxs p) j) else nth_error (ctxs p) j) /\ robjs p1 = robjs p.
Proof.
  intros SG NE. unfold assign. rewrite SG. destruct (least_some _ NE) as (k & L). rewrite L. unfold add_refs. rewrite SG. do 2 eexists. split; [reflexivity|].
  split; [apply least_first; exact L|]. split; [|reflexivity]. intros j. cbn [ctxs]. apply nth_upd.
Qed.
Print Assumptions C45_least_loaded.
(** Creating objects never makes the loads differ by more than one (or than they did). *)
Theorem C45_spread n : forall p d, single p = false -> 1 <= d -> spread (ctxs p) d -> (forall x, In x (ctxs p) -> x + N.of_nat n < W32) ->
  spread (ctxs (rsteps p (repeat RNew n))) d /\ length (robjs (rsteps p (repeat RNew n))) = (if ctxs p then length (robjs p) else length (robjs p) + n)%nat.
Proof.
  induction n as [|n IH]; intros p d SG D S B; [split; [exact S|]; cbn; destruct (ctxs p); lia|]. cbn [repeat]. unfold rsteps. cbn [fold_left]. fold (rsteps (rstep p RNew) (repeat RNew n)).
  cbn [rstep]. unfold assign. rewrite SG. destruct (least (ctxs p)) as [k|] eqn:L.
  - unfold add_refs. rewrite SG. cbn [single ctxs robjs]. destruct (least_first _ _ L) as (x & E & M & _).
    assert (S' : spread (upd_nth k (fun x => (x + 1) mod W32) (ctxs p)) d).
    { apply spread_inc; [apply least_first; exact L|exact D|exact S|]. intros y Y. apply N.mod_small. specialize (B y (nth_error_In _ _ Y)). lia. }
    destruct (IH (mk_pump false (upd_nth k (fun x => (x + 1) mod W32) (ctxs p)) (robjs p ++ [mk_ro k 1])) d eq_refl D S') as (I1 & I2).
    + cbn [ctxs]. intros y Y. apply In_upd in Y. destruct Y as [(z & Z & ->)|Y]; [specialize (B z (nth_error_In _ _ Z)); rewrite N.mod_small by lia; lia|specialize (B y Y); lia].
    + split; [exact I1|]. rewrite I2. cbn [ctxs robjs]. rewrite app_length. pose proof (length_upd (fun x => (x + 1) mod W32) (ctxs p) k) as LU.
      destruct (ctxs p); [destruct k; discriminate|]. destruct (upd_nth k _ _); [discriminate|]. cbn [length]. lia.
  - destruct (ctxs p) as [|x l] eqn:C; [|destruct (least_some (x :: l)) as (k & K); [discriminate|congruence]].
    rewrite <- C in S. destruct (IH p d SG D S) as (I1 & I2); [rewrite C; intros ? []|]. split; [exact I1|]. rewrite I2, C. reflexivity.
Qed.
Print Assumptions C45_spread.
Example C45_example : first_least [3; 2; 5; 2] 1 /\ assign (mk_pump false [3; 2; 5; 2] []) = Some (1%nat, mk_pump false [3; 3; 5; 2] []) /\
  spread [2; 2; 3] 1 /\ ctxs (rsteps (mk_pump false [2; 2; 3] []) (repeat RNew 4)) = [4; 4; 3].
Proof.
  split.
  - exists 2. split; [reflexivity|]. split; [intros y [<-|[<-|[<-|[<-|[]]]]]; lia|]. intros [|j] y J E; [inversion E; lia|lia].
  - split; [reflexivity|]. split; [|reflexivity]. intros x y [<-|[<-|[<-|[]]]] [<-|[<-|[<-|[]]]]; lia.
Qed.

(** ** C46: references balance *)
Definition C46_statement : Prop := forall multi al k x,
  let p := rsteps (new_pump multi) al in
  single p = false -> nth_error (ctxs p) k = Some x -> x = held k (robjs p) mod W32.
(** False: an object constructed while there was only one io_context was not counted; when it gives its reference
    back after io_contexts were added, the unsigned counter wraps and the first io_context is never chosen again. *)
Theorem C46_refuted : exists al, let p := rsteps (new_pump false) al in
  single p = false /\ held 0 (robjs p) = 0 /\ ctxs p = [4294967295; 0] /\ ctxs (rsteps p (repeat RNew 5)) = [4294967295; 5].
Proof. exists [RNew; RCtxs 1; RClear 0]. repeat split; vm_compute; reflexivity. Qed.
Print Assumptions C46_refuted.
Theorem C46_statement_refuted : ~ C46_statement.
Proof.
  intros H. destruct C46_refuted as (al & SG & HE & C & _). specialize (H false al 0%nat 4294967295). cbv zeta in H. rewrite SG, C, HE in H. specialize (H eq_refl eq_refl). discriminate.
Qed.
Print Assumptions C46_statement_refuted.
(** It holds if all io_contexts are there before the first object. *)
Theorem C46_balanced_partial multi al k x : contexts_first false al = true ->
  let p := rsteps (new_pump multi) al in
  single p = false -> nth_error (ctxs p) k = Some x -> x = held k (robjs p) mod W32.
Proof. intros CF p SG E. destruct (rinv_steps al (new_pump multi) false) as (V & _); [reflexivity|exact CF|constructor|apply rinv_new|]. exact (r_bal _ V SG _ _ E). Qed.
Print Assumptions C46_balanced_partial.
(** In particular everything is back at zero when all objects gave their references back (as destructors do). *)
Theorem C46_back_to_zero_partial multi al : contexts_first false al = true ->
  let p := rsteps (new_pump multi) al in
  (forall r, In r (robjs p) -> ro_refs r = 0) -> forall x, In x (ctxs p) -> x = 0.
Proof.
  intros CF p Z x X. destruct (rinv_steps al (new_pump multi) false) as (V & _); [reflexivity|exact CF|constructor|apply rinv_new|]. fold p in V.
  destruct (single p) eqn:SG; [exact (r_zero _ V SG _ X)|]. apply In_nth_error in X. destruct X as (k & X). rewrite (r_bal _ V SG _ _ X).
  replace (held k (robjs p)) with 0; [reflexivity|]. clear - Z. induction (robjs p) as [|r l IH]; [reflexivity|]. cbn [held]. rewrite (Z r (or_introl eq_refl)), <- IH by (intros; apply Z; right; assumption). destruct (_ =? _)%nat; reflexivity.
Qed.
Print Assumptions C46_back_to_zero_partial.
Definition ex_refs : list rop := [RCtxNum 3; RNew; RNew; RNew; RNew; RAdd 1 4; RSub 2 2; RSub 2 1; RReset 2; RClear 0; RClear 0].
Example C46_example : contexts_first false ex_refs = true /\ let p := rsteps (new_pump false) ex_refs in
  single p = false /\ ctxs p = [1; 5; 1] /\ map ro_refs (robjs p) = [0; 5; 1; 1] /\ map ro_ctx (robjs p) = [0; 1; 2; 0]%nat.
Proof. repeat split. Qed.
(** all gone *)
Example C46_zero_example : let p := rsteps (new_pump true) [RNew; RCtxNum 0; RAdd 0 7; RClear 0] in
  contexts_first false [RNew; RCtxNum 0; RAdd 0 7; RClear 0] = false /\
  let q := rsteps (new_pump true) (ex_refs ++ map RClear [0; 1; 2; 3]%nat) in contexts_first false (ex_refs ++ map RClear [0; 1; 2; 3]%nat) = true /\ map ro_refs (robjs q) = [0; 0; 0; 0] /\ ctxs q = [0; 0; 0].
Proof. repeat split. Qed.

(** ** C47: service threads are spread over the io_contexts *)
(** calls of start_service/run_service ([TStart], ignored if started, include/service_pump.h:270, 302) and add_service_thread *)
Inductive top : Type := TStart (n : Z) (block : bool) | TAdd (n : Z) (block : bool) (io : Z).
Definition tstep (t : thr) (o : top) : thr :=
  match o with
  | TStart n b => if sv_started t then t else do_service t n b
  | TAdd n b io => add_service_thread t n b io
  end.
Definition tsteps (t : thr) (l : list top) : thr := fold_left tstep l t.
Definition fresh (c : nat) : thr := mk_thr (repeat 0 c) [] false.
Definition blocks (o : top) : bool := match o with TStart _ b => b | TAdd _ b _ => b end.
Definition adds_ctx (o : top) : bool := match o with TStart _ _ => false | TAdd _ _ io => (0 <? io)%Z end.

(** once started, every io_context has a thread; and without added io_contexts thread numbers differ by at most one *)
Definition C47_statement : Prop := forall c al, let t := tsteps (fresh c) al in
  (sv_started t = true -> forall k, (k < length (tn t))%nat -> 1 <= serving t k) /\
  (forallb (fun o => negb (adds_ctx o)) al = true -> forall j k, (j < length (tn t))%nat -> (k < length (tn t))%nat -> serving t j <= serving t k + 1).
(** False: the thread that called run_service serves an io_context but is not counted. Afterwards a new io_context may
    stay without a thread, and thread numbers may differ by two. *)
Theorem C47_refuted : exists al al', 
  (let t := tsteps (fresh 2) al in sv_started t = true /\ map (serving t) [0; 1; 2]%nat = [1; 2; 0]) /\
  (let t := tsteps (fresh 2) al' in forallb (fun o => negb (adds_ctx o)) al' = true /\ map (serving t) [0; 1]%nat = [3; 1]).
Proof. exists [TStart 2 true; TAdd 1 false 1], [TStart 3 true; TAdd 1 false 0]. repeat split; vm_compute; reflexivity. Qed.
Print Assumptions C47_refuted.
Theorem C47_statement_refuted : ~ C47_statement.
Proof.
  intros H. destruct (H 2%nat [TStart 2 true; TAdd 1 false 1]) as (H1 & _). specialize (H1 eq_refl 2%nat). vm_compute in H1. apply H1; [repeat constructor|reflexivity].
Qed.
Print Assumptions C47_statement_refuted.

Definition sinv (t : thr) : Prop := (sv_started t = true -> zeros (tn t) = 0%nat) /\ blocked t = [].
Lemma tstep_inv t o : blocks o = false -> sinv t -> sinv (tstep t o) /\ (adds_ctx o = false -> spread (tn t) 1 -> spread (tn (tstep t o)) 1).
Proof.
  intros B (Z & BL). destruct o as [n b|n b io]; cbn [blocks] in B; subst b; cbn [tstep adds_ctx].
  - destruct (sv_started t) eqn:ST; [split; [split; [rewrite ST; exact Z|exact BL]|auto]|]. unfold do_service. destruct (Z.leb_spec n 0); cbn [orb]; [split; [split; [rewrite ST; discriminate|exact BL]|auto]|].
    destruct (Z.ltb_spec n (Z.of_nat (length (tn t)))); [split; [split; [rewrite ST; discriminate|exact BL]|auto]|].
    unfold add_service_thread. cbn [Z.ltb Z.compare]. destruct (add_many_false (Z.to_nat n) (mk_thr (tn t) (blocked t) true)) as (A1 & A2 & A3 & A4 & A5). cbn [tn blocked sv_started] in *.
    split; [split; [|congruence]|intros _ S; apply A5; [lia|exact S]]. intros _. rewrite A1. pose proof (zeros_le (tn t)). lia.
  - unfold add_service_thread. destruct (Z.ltb_spec 0 io) as [I|I].
    + destruct (Z.ltb_spec n io); [split; [split; assumption|discriminate]|]. destruct (add_many_false (Z.to_nat n) (mk_thr (tn t ++ repeat 0 (Z.to_nat io)) (blocked t) (sv_started t))) as (A1 & A2 & A3 & A4 & A5).
      cbn [tn blocked sv_started] in *. split; [|discriminate]. split; [|congruence]. rewrite A3, A1, zeros_app, zeros_repeat. intros ST. rewrite (Z ST). lia.
    + destruct (add_many_false (Z.to_nat n) t) as (A1 & A2 & A3 & A4 & A5). split; [split; [|congruence]|intros _ S; apply A5; [lia|exact S]]. rewrite A3, A1. intros ST. rewrite (Z ST). lia.
Qed.
Lemma tsteps_inv al : forall t, forallb (fun o => negb (blocks o)) al = true -> sinv t -> sinv (tsteps t al) /\
  (forallb (fun o => negb (adds_ctx o)) al = true -> spread (tn t) 1 -> spread (tn (tsteps t al)) 1).
Proof.
  induction al as [|o al IH]; intros t NB V; [split; auto|]. cbn [forallb] in NB. apply andb_prop in NB as (N1 & N2). unfold tsteps. cbn [fold_left]. fold (tsteps (tstep t o) al).
  destruct (tstep_inv t o) as (V1 & S1); [destruct (blocks o); [discriminate|reflexivity]|exact V|]. destruct (IH _ N2 V1) as (V2 & S2). split; [exact V2|].
  cbn [forallb]. intros NA S. apply andb_prop in NA as (A1 & A2). apply S2; [exact A2|]. apply S1; [destruct (adds_ctx o); [discriminate|reflexivity]|exact S].
Qed.
Lemma serving_one t k j : blocked t = [] -> least (tn t) = Some k ->
  serving (add_one t true) j = nth j (upd_nth k N.succ (tn t)) 0.
Proof.
  intros B L. unfold add_one. rewrite L. unfold serving. cbn [tn blocked]. rewrite B. cbn [app count_occ]. destruct (least_first _ _ L) as (x & E & _).
  destruct (Nat.eq_dec k j) as [<-|NE].
  - rewrite (nth_error_nth _ _ _ E). assert (E' : nth_error (upd_nth k N.succ (tn t)) k = Some (N.succ x)) by (rewrite nth_upd, Nat.eqb_refl, E; reflexivity). rewrite (nth_error_nth _ _ _ E'). lia.
  - replace (nth j (upd_nth k N.succ (tn t)) 0) with (nth j (tn t) 0); [lia|]. rewrite !nth_default_eq || idtac. destruct (nth_error (tn t) j) as [y|] eqn:EY.
    + rewrite (nth_error_nth _ _ _ EY). symmetry. apply nth_error_nth. rewrite nth_upd. destruct (Nat.eqb_spec j k); [congruence|exact EY].
    + apply nth_error_None in EY. rewrite !nth_overflow; [reflexivity|rewrite length_upd; exact EY|exact EY].
Qed.
(** the last call may block *)
Lemma last_inv t o : sinv t -> let t' := tstep t o in exists u,
  (forall j, serving t' j = nth j u 0) /\ length u = length (tn t') /\ (sv_started t' = true -> zeros u = 0%nat) /\ (adds_ctx o = false -> spread (tn t) 1 -> spread u 1).
Proof.
  intros V. destruct (blocks o) eqn:B.
  2:{ destruct (tstep_inv t o B V) as ((V1 & V2) & V3). exists (tn (tstep t o)). split; [intros j; unfold serving; rewrite V2; cbn [count_occ]; lia|]. auto. }
  (* a call with block: [add_many t0 n true] or nothing *)
  assert (G : forall t0 n, blocked t0 = [] -> exists u, (forall j, serving (add_many t0 n true) j = nth j u 0) /\ length u = length (tn (add_many t0 n true)) /\
     zeros u = (zeros (tn t0) - n)%nat /\ sv_started (add_many t0 n true) = sv_started t0 /\ (spread (tn t0) 1 -> spread u 1)).
  { intros t0 [|n] B0.
    - exists (tn t0). cbn [add_many]. split; [intros j; unfold serving; rewrite B0; cbn [count_occ]; lia|]. repeat split; auto; lia.
    - rewrite add_many_true. destruct (add_many_false n t0) as (A1 & A2 & A3 & A4 & A5). set (t1 := add_many t0 n false) in *. rewrite B0 in A2. destruct (add_one_false t1) as (C1 & C2 & C3 & C4 & C5).
      destruct (least (tn t1)) as [k|] eqn:L.
      + exists (tn (add_one t1 false)). assert (EQ : tn (add_one t1 false) = upd_nth k N.succ (tn t1)) by (unfold add_one; rewrite L; reflexivity).
        split; [intros j; rewrite EQ; apply serving_one; assumption|]. split; [rewrite EQ, length_upd; unfold add_one; rewrite L; reflexivity|].
        split; [rewrite C1, A1; lia|]. split; [unfold add_one; rewrite L; exact A3|]. intros S. apply C5; [lia|]. apply A5; [lia|exact S].
      + exists (tn t1). unfold add_one. rewrite L. split; [intros j; unfold serving; rewrite A2; cbn [count_occ]; lia|]. split; [reflexivity|].
        assert (T : tn t1 = []) by (destruct (tn t1) as [|x l]; [reflexivity|]; destruct (least_some (x :: l)) as (k & K); [discriminate|congruence]).
        assert (T0 : tn t0 = []) by (apply length_zero_iff_nil; rewrite <- A4, T; reflexivity). split; [rewrite T, T0; reflexivity|]. split; [exact A3|]. rewrite T. intros _ x y []. }
  destruct V as (V1 & V2). assert (IDLE : exists u, (forall j, serving t j = nth j u 0) /\ length u = length (tn t) /\ (sv_started t = true -> zeros u = 0%nat) /\ (adds_ctx o = false -> spread (tn t) 1 -> spread u 1)).
  { exists (tn t). split; [intros j; unfold serving; rewrite V2; cbn [count_occ]; lia|]. auto. }
  destruct o as [n b|n b io]; cbn [blocks] in B; subst b; cbn [tstep adds_ctx] in *.
  - destruct (sv_started t) eqn:ST; [rewrite ST; exact IDLE|]. unfold do_service. destruct (Z.leb_spec n 0); cbn [orb]; [rewrite ST; exact IDLE|]. destruct (Z.ltb_spec n (Z.of_nat (length (tn t)))); [rewrite ST; exact IDLE|].
    unfold add_service_thread. cbn [Z.ltb Z.compare]. destruct (G (mk_thr (tn t) (blocked t) true) (Z.to_nat n) V2) as (u & U1 & U2 & U3 & U4 & U5). exists u. cbn [tn sv_started] in *.
    split; [exact U1|]. split; [exact U2|]. split; [intros _; rewrite U3; pose proof (zeros_le (tn t)); lia|auto].
  - unfold add_service_thread. destruct (Z.ltb_spec 0 io) as [I|I].
    + destruct (Z.ltb_spec n io); [exact IDLE|]. destruct (G (mk_thr (tn t ++ repeat 0 (Z.to_nat io)) (blocked t) (sv_started t)) (Z.to_nat n) V2) as (u & U1 & U2 & U3 & U4 & U5). exists u. cbn [tn sv_started] in *.
      split; [exact U1|]. split; [exact U2|]. split; [|discriminate]. rewrite U4. intros ST. rewrite U3, zeros_app, zeros_repeat, (V1 ST). lia.
    + destruct (G t (Z.to_nat n) V2) as (u & U1 & U2 & U3 & U4 & U5). exists u. split; [exact U1|]. split; [exact U2|]. split; [|auto]. rewrite U4. intros ST. rewrite U3, (V1 ST). lia.
Qed.
(** It holds if no call but the last one blocks. *)
Theorem C47_spread_partial c al o : forallb (fun o => negb (blocks o)) al = true -> let t := tsteps (fresh c) (al ++ [o]) in
  (sv_started t = true -> forall k, (k < length (tn t))%nat -> 1 <= serving t k) /\
  (forallb (fun o => negb (adds_ctx o)) (al ++ [o]) = true -> forall j k, (j < length (tn t))%nat -> (k < length (tn t))%nat -> serving t j <= serving t k + 1).
Proof.
  intros NB t. assert (ET : t = tstep (tsteps (fresh c) al) o) by (subst t; unfold tsteps; rewrite fold_left_app; reflexivity). rewrite ET. clear t ET.
  destruct (tsteps_inv al (fresh c) NB) as (V & S); [split; [discriminate|reflexivity]|]. destruct (last_inv _ o V) as (u & U1 & U2 & U3 & U4).
  set (t := tstep (tsteps (fresh c) al) o) in *. split.
  - intros ST k K. rewrite U1. specialize (U3 ST). rewrite <- U2 in K. pose proof (nth_In u 0 K) as IN. destruct (N.eq_dec (nth k u 0) 0) as [Z|Z]; [|lia].
    exfalso. assert (F : In (nth k u 0) (filter (fun x => x =? 0) u)) by (apply filter_In; split; [exact IN|rewrite Z; reflexivity]). unfold zeros in U3. destruct (filter _ u); [contradiction|discriminate].
  - rewrite forallb_app. intros NA j k J K. apply andb_prop in NA as (N1 & N2). cbn [forallb] in N2. rewrite !U1. rewrite <- U2 in *. apply U4; [destruct (adds_ctx o); [discriminate|reflexivity]| |apply nth_In; exact J|apply nth_In; exact K].
    apply S; [exact N1|]. intros x y X Y. apply repeat_spec in X. apply repeat_spec in Y. subst. lia.
Qed.
Print Assumptions C47_spread_partial.
Example C47_example : let al := [TStart 5 false; TAdd 2 false 0; TAdd 3 false (-1)] in let t := tsteps (fresh 4) (al ++ [TAdd 3 true 0]) in
  forallb (fun o => negb (blocks o)) al = true /\ sv_started t = true /\ map (serving t) [0; 1; 2; 3]%nat = [4; 3; 3; 3] /\
  (* too few threads are refused *) sv_started (tsteps (fresh 4) [TStart 3 false]) = false.
Proof. repeat split. Qed.

(** ** C48: decreasing threads *)
Definition counted (pc : rpc) : bool := match pc with RBegin | RIncReal | RExit => false | _ => true end.
Definition numb (f : rpc -> bool) (l : list (nat * rpc)) : Z := Z.of_nat (length (filter (fun t => f (snd t)) l)).
Lemma numb_nonneg f l : (0 <= numb f l)%Z. Proof. unfold numb. lia. Qed.
Lemma numb_app f a b : numb f (a ++ b) = (numb f a + numb f b)%Z. Proof. unfold numb. rewrite filter_app, app_length. lia. Qed.
Lemma numb_upd f c pc pc' : forall l k, nth_error l k = Some (c, pc) ->
  numb f (upd_nth k (fun _ => (c, pc')) l) = (numb f l - (if f pc then 1 else 0) + (if f pc' then 1 else 0))%Z.
Proof.
  induction l as [|x l IH]; intros [|k] H; cbn [nth_error] in H; try discriminate; cbn [upd_nth]; unfold numb in *; cbn [filter].
  - inversion H; subst. cbn [snd]. destruct (f pc), (f pc'); cbn [length]; lia.
  - specialize (IH _ H). destruct (f (snd x)); cbn [length]; lia.
Qed.
Lemma numb_pos f l c pc k : nth_error l k = Some (c, pc) -> f pc = true -> (1 <= numb f l)%Z.
Proof.
  intros E F. unfold numb. assert (IN : In (c, pc) (filter (fun t => f (snd t)) l)) by (apply filter_In; split; [eapply nth_error_In; exact E|exact F]).
  destruct (filter _ l); [contradiction|]. cbn [length]. lia.
Qed.
Definition at_undo (pc : rpc) : bool := match pc with RUndo => true | _ => false end.
Definition at_decreal (pc : rpc) : bool := match pc with RDecReal => true | _ => false end.
Definition at_leave (pc : rpc) : bool := match pc with RLeave => true | _ => false end.
Definition asked (a : dact) : Z := match a with DDel n => if (0 <? n)%Z then n else 0 | _ => 0 end.
Fixpoint asked_total (l : list dact) : Z := match l with [] => 0 | a :: l' => (asked a + asked_total l')%Z end.

Lemma dstep_count s a s1 : dstep s a = Some s1 -> no_throw a = true -> real s = numb counted (pcs s) -> real s1 = numb counted (pcs s1).
Proof.
  intros H NT E. destruct a as [c|n|k r]; cbn [dstep] in H.
  - inversion H; subst. cbn [real pcs]. rewrite numb_app, E. unfold numb at 3. cbn. lia.
  - inversion H; subst. destruct (0 <? n)%Z; exact E.
  - destruct (nth_error (pcs s) k) as [[c pc]|] eqn:EN; [|discriminate]. destruct (rpc_step _ _ pc r) as [[[re de] pc']|] eqn:RS; [|discriminate]. inversion H; subst. cbn [real pcs].
    rewrite (numb_upd counted _ _ pc' _ _ EN), <- E. destruct pc; cbn [rpc_step] in RS; inversion RS; subst; cbn [counted]; try lia.
    + destruct (0 <? _)%Z; cbn; lia.
    + destruct (0 <=? _)%Z; cbn; lia.
    + destruct (0 <? _)%Z; cbn; lia.
    + cbn [no_throw] in NT. destruct r as [| |[]]; try discriminate; cbn; lia.
Qed.
Lemma dstep_alive s a s1 : dstep s a = Some s1 -> no_throw a = true -> has_work a = true -> real s = numb counted (pcs s) -> numb at_leave (pcs s) = 0%Z ->
  (pcs s <> [] -> alive s <> []) -> (pcs s1 <> [] -> alive s1 <> []) /\ numb at_leave (pcs s1) = 0%Z.
Proof.
  intros H NT HW E NL AL. destruct a as [c|n|k r]; cbn [dstep] in H.
  - inversion H; subst. cbn [pcs]. split; [|rewrite numb_app, NL; reflexivity]. intros _. unfold alive. cbn [pcs]. rewrite filter_app. cbn [filter snd exited negb]. destruct (filter _ (pcs s)); discriminate.
  - inversion H; subst. destruct (0 <? n)%Z; auto.
  - destruct (nth_error (pcs s) k) as [[c pc]|] eqn:EN; [|discriminate]. destruct (rpc_step _ _ pc r) as [[[re de] pc']|] eqn:RS; [|discriminate]. inversion H; subst. cbn [pcs].
    assert (NL' : at_leave pc = false) by (destruct (at_leave pc) eqn:X; [pose proof (numb_pos at_leave _ _ _ _ EN X); lia|reflexivity]).
    assert (X : forall pc', exited pc' = false -> alive (mk_dst re de (upd_nth k (fun _ => (c, pc')) (pcs s))) <> []).
    { intros q Q A. assert (IN : In (c, q) (alive (mk_dst re de (upd_nth k (fun _ => (c, q)) (pcs s))))).
      { unfold alive. apply filter_In. cbn [pcs snd]. split; [|rewrite Q; reflexivity]. eapply nth_error_In. rewrite nth_upd, Nat.eqb_refl, EN. reflexivity. }
      rewrite A in IN. contradiction. }
    split.
    + intros _. destruct (exited pc') eqn:XP; [|apply X; exact XP].
      (* only the decrement of real_thread_num ends a thread here *)
      destruct pc; cbn [rpc_step at_leave] in *; inversion RS; subst; try discriminate.
      * destruct (0 <? _)%Z in XP; discriminate.
      * destruct (0 <=? _)%Z in XP; discriminate.
      * destruct (Z.ltb_spec 0 (real s - 1)); [|discriminate]. intros A.
        pose proof (numb_upd counted c RDecReal RExit _ _ EN) as NU. cbn [counted] in NU.
        assert (P : (1 <= numb counted (upd_nth k (fun _ => (c, RExit)) (pcs s)))%Z) by lia. unfold numb in P.
        destruct (filter (fun t => counted (snd t)) (upd_nth k (fun _ => (c, RExit)) (pcs s))) as [|t ts] eqn:F; [cbn in P; lia|].
        assert (IT : In t (filter (fun t => counted (snd t)) (upd_nth k (fun _ => (c, RExit)) (pcs s)))) by (rewrite F; left; reflexivity). apply filter_In in IT. destruct IT as (I1 & I2).
        assert (IA : In t (alive (mk_dst (real s - 1) (del s) (upd_nth k (fun _ => (c, RExit)) (pcs s))))) by (unfold alive; apply filter_In; split; [exact I1|destruct (snd t); try discriminate; reflexivity]).
        rewrite A in IA. contradiction.
      * cbn [no_throw has_work] in *. destruct r as [| |[]]; discriminate.
    + rewrite (numb_upd at_leave _ _ pc' _ _ EN), NL, NL'. assert (at_leave pc' = false); [|rewrite H0; lia].
      destruct pc; cbn [rpc_step at_leave] in *; inversion RS; subst; try reflexivity; try discriminate; try (destruct (0 <? _)%Z; reflexivity); try (destruct (0 <=? _)%Z; reflexivity).
      cbn [no_throw has_work] in *. destruct r as [| |[]]; try discriminate; reflexivity.
Qed.
Lemma dstep_asked s a s1 tot : dstep s a = Some s1 -> no_throw a = true -> has_work a = true -> numb at_leave (pcs s) = 0%Z ->
  (del s + numb at_undo (pcs s) + numb exited (pcs s) + numb at_decreal (pcs s) <= tot)%Z ->
  (del s1 + numb at_undo (pcs s1) + numb exited (pcs s1) + numb at_decreal (pcs s1) <= tot + asked a)%Z.
Proof.
  intros H NT HW NL E. destruct a as [c|n|k r]; cbn [dstep asked] in *.
  - inversion H; subst. cbn [del pcs]. rewrite !numb_app. unfold numb at 2 4 6. cbn. lia.
  - inversion H; subst. destruct (0 <? n)%Z; cbn [del pcs]; lia.
  - destruct (nth_error (pcs s) k) as [[c pc]|] eqn:EN; [|discriminate]. destruct (rpc_step _ _ pc r) as [[[re de] pc']|] eqn:RS; [|discriminate]. inversion H; subst. cbn [del pcs].
    assert (NL' : at_leave pc = false) by (destruct (at_leave pc) eqn:X; [pose proof (numb_pos at_leave _ _ _ _ EN X); lia|reflexivity]).
    rewrite !(numb_upd _ _ _ pc' _ _ EN).
    destruct pc; cbn [rpc_step at_leave] in *; inversion RS; subst; cbn [at_undo at_decreal exited]; try discriminate; try lia.
    + destruct (0 <? _)%Z; cbn; lia.
    + destruct (0 <=? _)%Z; cbn; lia.
    + destruct (0 <? _)%Z; cbn; lia.
    + cbn [no_throw has_work] in *. destruct r as [| |[]]; try discriminate; cbn; lia.
Qed.
Lemma dsteps_inv al : forall s s1 tot, dsteps s al = Some s1 -> forallb no_throw al = true -> forallb has_work al = true ->
  real s = numb counted (pcs s) -> numb at_leave (pcs s) = 0%Z -> (pcs s <> [] -> alive s <> []) -> (del s + numb at_undo (pcs s) + numb exited (pcs s) + numb at_decreal (pcs s) <= tot)%Z ->
  (pcs s1 <> [] -> alive s1 <> []) /\ (del s1 + numb at_undo (pcs s1) + numb exited (pcs s1) + numb at_decreal (pcs s1) <= tot + asked_total al)%Z.
Proof.
  induction al as [|a al IH]; intros s s1 tot H NT HW E NL AL TO; cbn [dsteps] in H; [inversion H; subst; split; [exact AL|cbn; lia]|].
  destruct (dstep s a) as [s2|] eqn:ST; [|discriminate]. cbn [forallb] in NT, HW. apply andb_prop in NT as (N1 & N2). apply andb_prop in HW as (H1 & H2).
  destruct (dstep_alive _ _ _ ST N1 H1 E NL AL) as (A1 & A2). pose proof (dstep_asked _ _ _ _ ST N1 H1 NL TO) as T2.
  destruct (IH _ _ _ H N2 H2 (dstep_count _ _ _ ST N1 E) A2 A1 T2) as (R1 & R2). split; [exact R1|]. cbn [asked_total]. lia.
Qed.

(** while there is work and on_exception says to continue, a thread stays *)
Definition C48_statement : Prop := forall al s, dsteps d0 al = Some s -> forallb has_work al = true -> forallb goes_on al = true -> pcs s <> [] -> alive s <> [].
(** False: after an exception the thread ends, whatever on_exception returned. *)
Theorem C48_refuted : exists al s, dsteps d0 al = Some s /\ forallb has_work al = true /\ forallb goes_on al = true /\ pcs s <> [] /\ alive s = [].
Proof.
  exists [DSpawn 0; DStep 0 OneDone; DStep 0 OneDone; DStep 0 (Thrown true); DStep 0 OneDone]. eexists. split; [vm_compute; reflexivity|]. split; [reflexivity|]. split; [reflexivity|]. split; [discriminate|reflexivity].
Qed.
Print Assumptions C48_refuted.
Theorem C48_statement_refuted : ~ C48_statement.
Proof. intros H. destruct C48_refuted as (al & s & R & W & G & P & A). exact (H _ _ R W G P A). Qed.
Print Assumptions C48_statement_refuted.
(** ... and with on_exception returning false the number of threads stays too high, so that later the last one may go. *)
Theorem C48_stop_refuted : exists al s, dsteps d0 al = Some s /\ forallb has_work al = true /\ real s = 1%Z /\ pcs s <> [] /\ alive s = [].
Proof.
  exists [DSpawn 0; DSpawn 0; DStep 0 OneDone; DStep 0 OneDone; DStep 1 OneDone; DStep 0 (Thrown false); DDel 1; DStep 1 OneDone; DStep 1 OneDone; DStep 1 OneDone].
  eexists. split; [vm_compute; reflexivity|]. split; [reflexivity|]. split; [reflexivity|]. split; [discriminate|reflexivity].
Qed.
Print Assumptions C48_stop_refuted.
(** Without exceptions a thread always stays, no more threads end than asked for, ... *)
Theorem C48_never_the_last_partial al s : dsteps d0 al = Some s -> forallb has_work al = true -> forallb no_throw al = true ->
  (pcs s <> [] -> alive s <> []) /\ (Z.of_nat (length (pcs s)) - Z.of_nat (length (alive s)) <= asked_total al)%Z.
Proof.
  intros R W N0. destruct (dsteps_inv al d0 s 0 R N0 W eq_refl eq_refl) as (A & B); [intros X; contradiction|reflexivity|]. split; [exact A|].
  pose proof (numb_nonneg at_undo (pcs s)). pose proof (numb_nonneg at_decreal (pcs s)).
  assert (L : (Z.of_nat (length (pcs s)) = numb exited (pcs s) + Z.of_nat (length (alive s)))%Z).
  { unfold numb, alive. clear. induction (pcs s) as [|x l IH]; [reflexivity|]. cbn [filter length]. destruct (exited (snd x)); cbn [negb length]; lia. }
  (* del may be negative for a moment, but only while a thread is about to undo it *)
  enough (D : (0 <= del s + numb at_undo (pcs s))%Z) by lia. clear - R. cut (0 <= del d0 + numb at_undo (pcs d0))%Z; [|reflexivity]. revert R. generalize d0. induction al as [|a al IH]; intros s0 R D; cbn [dsteps] in R; [inversion R; subst; exact D|].
  destruct (dstep s0 a) as [s2|] eqn:ST; [|discriminate]. apply (IH _ R). clear - ST D. destruct a as [c|n|k r]; cbn [dstep] in ST.
  - inversion ST; subst. cbn [del pcs]. rewrite numb_app. unfold numb at 2. cbn. lia.
  - inversion ST; subst. destruct (0 <? n)%Z eqn:E; cbn [del pcs]; lia.
  - destruct (nth_error (pcs s0) k) as [[c pc]|] eqn:EN; [|discriminate]. destruct (rpc_step _ _ pc r) as [[[re de] pc']|] eqn:RS; [|discriminate]. inversion ST; subst. cbn [del pcs]. rewrite (numb_upd _ _ _ pc' _ _ EN).
    destruct pc; cbn [rpc_step] in RS; inversion RS; subst; cbn [at_undo]; try lia.
    + destruct (0 <? _)%Z; cbn; lia.
    + pose proof (numb_nonneg at_undo (pcs s0)). destruct (Z.leb_spec 0 (del s0 - 1)); cbn [at_undo]; lia.
    + destruct (0 <? _)%Z; cbn; lia.
    + destruct r as [| |[]]; cbn; lia.
Qed.
Print Assumptions C48_never_the_last_partial.
(** ... and service_thread_num() is the number of threads whenever none is just changing it. *)
Theorem C48_thread_num_partial al s : dsteps d0 al = Some s -> forallb no_throw al = true ->
  (forall t, In t (pcs s) -> snd t <> RBegin /\ snd t <> RIncReal) -> real s = Z.of_nat (length (alive s)).
Proof.
  intros R N0 Q. assert (C : real s = numb counted (pcs s)).
  { clear Q. cut (real d0 = numb counted (pcs d0)); [|reflexivity]. revert R. generalize d0. induction al as [|a al IH]; intros s0 R D; cbn [dsteps] in R; [inversion R; subst; exact D|].
    destruct (dstep s0 a) as [s2|] eqn:ST; [|discriminate]. cbn [forallb] in N0. apply andb_prop in N0 as (N1 & N2). apply (IH N2 _ R). exact (dstep_count _ _ _ ST N1 D). }
  rewrite C. unfold numb, alive. f_equal. f_equal. clear - Q. induction (pcs s) as [|x l IH]; [reflexivity|]. cbn [filter]. rewrite IH by (intros t T; apply Q; right; exact T).
  destruct (Q x (or_introl eq_refl)) as (Q1 & Q2). destruct (snd x); cbn; congruence.
Qed.
Print Assumptions C48_thread_num_partial.
(** two threads, three to be deleted: one ends, the other one stays *)
Definition ex_del : list dact := [DSpawn 0; DSpawn 0; DStep 0 OneDone; DStep 1 OneDone; DDel 3; DStep 0 OneDone; DStep 1 OneDone; DStep 1 OneDone; DStep 0 OneDone; DStep 0 OneDone; DStep 1 OneDone; DStep 1 OneDone].
Example C48_example : exists s, dsteps d0 ex_del = Some s /\ forallb has_work ex_del = true /\ forallb no_throw ex_del = true /\ asked_total ex_del = 3%Z /\
  pcs s = [(0%nat, RExit); (0%nat, RRun)] /\ real s = 1%Z.
Proof. eexists. split; [vm_compute; reflexivity|]. repeat split; reflexivity. Qed.

(** ** C70: no io_context loses its last thread *)
Definition C70_statement : Prop := forall al s c, dsteps d0 al = Some s -> forallb has_work al = true -> forallb no_throw al = true ->
  (exists t, In t (pcs s) /\ fst t = c) -> alive_on c s <> [].
(** False with several io_contexts: only the total number of threads is kept above zero. *)
Theorem C70_refuted : exists al s, dsteps d0 al = Some s /\ forallb has_work al = true /\ forallb no_throw al = true /\ pcs s = [(0%nat, RCheck); (1%nat, RExit)] /\ alive_on 1 s = [].
Proof.
  exists [DSpawn 0; DSpawn 1; DStep 0 OneDone; DStep 1 OneDone; DDel 1; DStep 1 OneDone; DStep 1 OneDone; DStep 1 OneDone]. eexists. split; [vm_compute; reflexivity|]. repeat split; reflexivity.
Qed.
Print Assumptions C70_refuted.
Theorem C70_statement_refuted : ~ C70_statement.
Proof. intros H. destruct C70_refuted as (al & s & R & W & N0 & P & A). apply (H al s 1%nat R W N0); [|exact A]. exists (1%nat, RExit). rewrite P. split; [right; left; reflexivity|reflexivity]. Qed.
Print Assumptions C70_statement_refuted.
Theorem C70_single_context_partial al s c : dsteps d0 al = Some s -> forallb has_work al = true -> forallb no_throw al = true ->
  (forall t, In t (pcs s) -> fst t = c) -> pcs s <> [] -> alive_on c s <> [].
Proof.
  intros R W N0 S P. destruct (C48_never_the_last_partial al s R W N0) as (A & _). specialize (A P). unfold alive_on. destruct (alive s) as [|t l] eqn:AL; [congruence|]. cbn [filter].
  rewrite (S t); [rewrite Nat.eqb_refl; discriminate|]. assert (IN : In t (alive s)) by (rewrite AL; left; reflexivity). unfold alive in IN. apply filter_In in IN. tauto.
Qed.
Print Assumptions C70_single_context_partial.

(** ** C70 with any number of io_contexts *)
(** A context that has more threads than were asked away in all keeps at least the difference. *)
Theorem C70_enough_partial al s c : dsteps d0 al = Some s -> forallb has_work al = true -> forallb no_throw al = true ->
  (Z.of_nat (length (filter (fun t => (fst t =? c)%nat) (pcs s))) - asked_total al <= Z.of_nat (length (alive_on c s)))%Z.
Proof.
  intros R W N0. destruct (C48_never_the_last_partial al s R W N0) as (_ & B). unfold alive_on, alive in *.
  assert (L : forall l : list (nat * rpc), (Z.of_nat (length (filter (fun t => (fst t =? c)%nat) l)) - Z.of_nat (length (filter (fun t => (fst t =? c)%nat) (filter (fun t => negb (exited (snd t))) l)))
    <= Z.of_nat (length l) - Z.of_nat (length (filter (fun t => negb (exited (snd t))) l)))%Z).
  { induction l as [|x l IH]; [reflexivity|]. cbn [filter length]. destruct (negb (exited (snd x))); cbn [filter length]; destruct (fst x =? c)%nat; cbn [length]; lia. }
  specialize (L (pcs s)). lia.
Qed.
Print Assumptions C70_enough_partial.
(** two contexts with two threads each, one thread asked away: both keep one at least *)
Definition ex_two : list dact := [DSpawn 0; DSpawn 1; DSpawn 0; DSpawn 1; DStep 0 OneDone; DStep 1 OneDone; DStep 2 OneDone; DStep 3 OneDone; DDel 1; DStep 3 OneDone; DStep 3 OneDone; DStep 3 OneDone].
Example C70_enough_example : exists s, dsteps d0 ex_two = Some s /\ forallb has_work ex_two = true /\ forallb no_throw ex_two = true /\ asked_total ex_two = 1%Z /\
  length (filter (fun t => (fst t =? 1)%nat) (pcs s)) = 2%nat /\ length (alive_on 1 s) = 1%nat /\ length (alive_on 0 s) = 2%nat.
Proof. eexists. split; [vm_compute; reflexivity|]. repeat split; reflexivity. Qed.
