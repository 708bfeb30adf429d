(** Proofs about the fixed-length, stream and datagram receivers. *)
From Coq Require Import List NArith Bool Lia ZifyBool ZifyNat ZifyN.
From Verif Require Import M_Bytes M_Config M_Rx M_Flex M_Simple M_UdpRx L_Bytes L_Frame L_Rx L_NonCopy.
Import ListNotations.
Open Scope N_scope.

Section Fixed.
Context (n : N) (g : nat -> byte) (Hn : 0 < n).
Notation U := (fixed_unpacker n g).

Definition FI (st : rxst xst) (p : list byte) : Prop :=
  match st with
  | Halted _ => False
  | Reading s sp t lim => sp = n /\ lenN (xraw s) = n /\ t < n /\ lim = n - t /\ p = takeN t (xraw s)
  end.

Lemma fx_start s : FI (start_read U s) [].
Proof.
  unfold start_read. cbn [fixed_unpacker u_space u_cc fx_space fx_cc]. destruct (N.eqb_spec n 0); [lia|].
  cbn [xraw]. unfold fx_cc. cbn [xraw]. rewrite lenN_garbage. destruct (N.eqb_spec 0 n); [lia|]. destruct (N.eqb_spec n 0); [lia|].
  cbn [FI xraw]. rewrite lenN_garbage. repeat split; lia.
Qed.

Lemma fx_feed awf st p d st' o : FI st p -> feed awf U st d = Some (st', o) ->
  exists p', FI st' p' /\ concat (all_msgs o) ++ p' = p ++ d /\ Forall (fun m => lenN m = n) (all_msgs o) /\ any_err o = false.
Proof.
  destruct st as [s sp t lim|h]; [|intros []]. cbn [FI]. intros (Hsp & Lr & Ht & Hlim & Hp) HF.
  unfold feed in HF. destruct ((lenN d =? 0) || (lim <? lenN d)) eqn:Hleg; [discriminate|].
  apply orb_false_elim in Hleg as [Hd0 Hd1]. inversion HF as [HF']; clear HF.
  cbn [fixed_unpacker u_write u_cc] in HF'. unfold fx_write in HF'.
  destruct (blit (xraw s) t d) as [raw'|b] eqn:EB; cbn [bind] in HF'; [|rewrite blit_ok in EB by lia; discriminate].
  pose proof (blit_len _ _ _ _ EB) as Lr'. pose proof (blit_take _ _ _ _ EB) as Htk. rewrite <- Hp in Htk.
  assert (Fin : t + lenN d = n -> complete_read U (mk_xst raw') (t + lenN d) = (st', o) ->
     exists p', FI st' p' /\ concat (all_msgs o) ++ p' = p ++ d /\ Forall (fun m => lenN m = n) (all_msgs o) /\ any_err o = false).
  { intros Hf HCR. unfold complete_read in HCR. cbn [fixed_unpacker u_parse u_reset] in HCR. unfold fx_parse in HCR. cbn [xraw] in HCR.
    destruct (N.eqb_spec (t + lenN d) (lenN raw')); [|lia]. cbn [negb] in HCR. inversion HCR; subst st' o.
    exists []. split; [apply fx_start|]. unfold all_msgs, any_err. cbn. rewrite !app_nil_r. repeat split.
    - rewrite <- Htk. rewrite Hf. symmetry. apply takeN_all. lia.
    - constructor; [lia|constructor]. }
  destruct ((sp <=? t + lenN d) && negb awf) eqn:Hcase.
  { apply Fin; [lia|assumption]. }
  unfold fx_cc in HF'. cbn [xraw] in HF'. destruct (N.eqb_spec (t + lenN d) (lenN raw')) as [He|He].
  { cbn [N.eqb orb] in HF'. apply Fin; [lia|assumption]. }
  destruct (N.eqb_spec n 0); [lia|]. cbn [orb] in HF'. destruct (N.leb_spec sp (t + lenN d)); [lia|].
  inversion HF'; subst st' o. exists (p ++ d). cbn. repeat split; try lia; auto.
Qed.

Lemma fx_run awf : forall ds st p st' o, FI st p -> run awf U st ds = Some (st', o) ->
  exists p', FI st' p' /\ concat (all_msgs o) ++ p' = p ++ concat ds /\ Forall (fun m => lenN m = n) (all_msgs o) /\ any_err o = false.
Proof.
  induction ds as [|d ds IH]; intros st p st' o HI HR; cbn [run concat] in *.
  - inversion HR; subst. exists p. rewrite app_nil_r. repeat split; auto. constructor.
  - destruct (feed awf U st d) as [[st1 o1]|] eqn:EF; [|discriminate].
    destruct (run awf U st1 ds) as [[st2 o2]|] eqn:ER; [|discriminate]. inversion HR; subst.
    destruct (fx_feed _ _ _ _ _ _ HI EF) as (p1 & HI1 & E1 & F1 & X1).
    destruct (IH _ _ _ _ HI1 ER) as (p2 & HI2 & E2 & F2 & X2).
    exists p2. rewrite all_msgs_app, any_err_app, concat_app, X1, X2. repeat split; auto.
    + rewrite <- app_assoc, E2, app_assoc, E1, app_assoc. reflexivity.
    + apply Forall_app. auto.
Qed.

Lemma fx_all awf s0 ds st o : run awf U (start_read U s0) ds = Some (st, o) ->
  exists tail, concat (all_msgs o) ++ tail = concat ds /\ Forall (fun m => lenN m = n) (all_msgs o) /\ lenN tail < n /\ any_err o = false /\
  (exists s sp t lim, st = Reading s sp t lim /\ 0 < lim /\ t + lim <= sp /\ sp = lenN (xraw s)) /\
  (exists s, read_error U st = Ok (Some s, [])).
Proof.
  intros HR. destruct (fx_run _ _ _ _ _ _ (fx_start s0) HR) as (p & HI & E & F & X).
  exists p. cbn [app] in E. destruct st as [s sp t lim|h]; [|destruct HI]. cbn [FI] in HI. destruct HI as (Hsp & Lr & Ht & Hlim & Hp).
  repeat split; auto.
  - subst p. rewrite lenN_takeN. lia.
  - exists s, sp, t, lim. repeat split; lia.
  - unfold read_error. destruct (N.eqb_spec t 0); [eauto|]. cbn [fixed_unpacker u_parse u_reset]. unfold fx_parse.
    destruct (N.eqb_spec t (lenN (xraw s))); [lia|]. cbn [negb]. eauto.
Qed.
End Fixed.

Section Stream.
Context (c : cfg) (HC : cfg_ok c = true).
Notation U := (stream_unpacker c).
Definition SI (st : rxst xst) : Prop :=
  match st with
  | Halted _ => False
  | Reading s sp t lim => lenN (xraw s) = bufsz c /\ sp = bufsz c /\ t = 0 /\ lim = bufsz c
  end.

Lemma sm_start s : lenN (xraw s) = bufsz c -> SI (start_read U s).
Proof.
  destruct (cfg_ok_facts c HC) as (C1 & C2 & C3 & C4). destruct (head_len_cases c) as [Hh|Hh].
  all: intros L; unfold start_read; cbn [stream_unpacker u_space u_cc sm_space]; unfold sm_cc.
  all: rewrite L; destruct (N.eqb_spec (bufsz c) 0); [lia|]; destruct (N.ltb_spec 0 0); [lia|]; destruct (N.eqb_spec (bufsz c) 0); [lia|].
  all: cbn [SI]; repeat split; lia.
Qed.

Lemma sm_feed awf st d st' o : SI st -> feed awf U st d = Some (st', o) -> SI st' /\ all_msgs o = [d] /\ any_err o = false.
Proof.
  destruct st as [s sp t lim|h]; [|intros []]. cbn [SI]. intros (Lr & Hsp & Ht & Hlim) HF.
  unfold feed in HF. destruct ((lenN d =? 0) || (lim <? lenN d)) eqn:Hleg; [discriminate|].
  apply orb_false_elim in Hleg as [Hd0 Hd1]. inversion HF as [HF']; clear HF. subst t. rewrite N.add_0_l in HF'.
  cbn [stream_unpacker u_write u_cc] in HF'. unfold fx_write in HF'.
  destruct (blit (xraw s) 0 d) as [raw'|b] eqn:EB; cbn [bind] in HF'; [|rewrite blit_ok in EB by lia; discriminate].
  pose proof (blit_len _ _ _ _ EB) as Lr'. pose proof (blit_take _ _ _ _ EB) as Htk. rewrite takeN_0, N.add_0_l in Htk. cbn [app] in Htk.
  assert (Fin : complete_read U (mk_xst raw') (lenN d) = (st', o) -> SI st' /\ all_msgs o = [d] /\ any_err o = false).
  { intros HCR. unfold complete_read in HCR. cbn [stream_unpacker u_parse u_reset] in HCR. unfold sm_parse in HCR. cbn [xraw] in HCR.
    destruct (N.eqb_spec (lenN d) 0); [lia|]. destruct (N.ltb_spec (bufsz c) (lenN d)); [lia|].
    rewrite fetch_ok in HCR by lia. rewrite dropN_0 in HCR. cbn [bind] in HCR. inversion HCR; subst st' o.
    split; [apply sm_start; cbn [xraw]; lia|]. unfold all_msgs, any_err. cbn. rewrite Htk. auto. }
  destruct ((sp <=? lenN d) && negb awf); [auto|].
  unfold sm_cc in HF'. destruct (N.ltb_spec 0 (lenN d)); [|lia]. cbn [N.eqb orb] in HF'. auto.
Qed.

Lemma sm_run awf : forall ds st st' o, SI st -> run awf U st ds = Some (st', o) -> SI st' /\ all_msgs o = ds /\ any_err o = false.
Proof.
  induction ds as [|d ds IH]; intros st st' o HI HR; cbn [run] in *.
  - inversion HR; subst. auto.
  - destruct (feed awf U st d) as [[st1 o1]|] eqn:EF; [|discriminate].
    destruct (run awf U st1 ds) as [[st2 o2]|] eqn:ER; [|discriminate]. inversion HR; subst.
    destruct (sm_feed _ _ _ _ _ HI EF) as (HI1 & E1 & X1). destruct (IH _ _ _ HI1 ER) as (HI2 & E2 & X2).
    rewrite all_msgs_app, any_err_app, E1, E2, X1, X2. auto.
Qed.
Lemma sm_all awf mem ds st o : lenN mem = bufsz c -> run awf U (start_read U (sm_init mem)) ds = Some (st, o) ->
  all_msgs o = ds /\ any_err o = false /\ exists s sp t lim, st = Reading s sp t lim /\ 0 < lim /\ t + lim <= sp /\ sp = lenN (xraw s).
Proof.
  destruct (cfg_ok_facts c HC) as (C1 & C2 & C3 & C4). assert (0 < bufsz c) by (destruct (head_len_cases c); lia).
  intros L HR. destruct (sm_run _ _ _ _ _ (sm_start (sm_init mem) L) HR) as (HI & E & X). repeat split; auto.
  destruct st as [s sp t lim|h]; [|destruct HI]. cbn [SI] in HI. exists s, sp, t, lim. repeat split; lia.
Qed.
End Stream.

Section Udp.
Context (c : cfg) (HC : cfg_ok c = true) (win : bool).
Definition UI (conn : bool) (peer : addr) (s : ust) : Prop :=
  lenN (uraw s) = bufsz c /\ uconn s = conn /\ upeer s = peer /\ ureceiving s = true.

Definition udp_seen (conn : bool) (peer : addr) (ev : uevent) : list (addr * list byte) :=
  match ev with
  | Arrive from d => match d with [] => [] | _ => [(if conn then peer else from, takeN (bufsz c) d)] end
  | RecvError _ => []
  end.
Definition udp_goes_on (ev : uevent) : bool :=
  match ev with Arrive _ _ => true | RecvError e => ignored win e end.

Lemma bpos : 0 < bufsz c.
Proof. destruct (cfg_ok_facts c HC) as (C1 & C2 & C3 & C4). destruct (head_len_cases c); lia. Qed.

Lemma udp_step_ok conn peer s ev : UI conn peer s -> udp_goes_on ev = true ->
  exists s', udp_step c win s ev = Ok (s', mk_uout (udp_seen conn peer ev) false) /\ UI conn peer s'.
Proof.
  pose proof bpos as BP. intros (L & Hc & Hp & Hr) HG. unfold udp_step. rewrite Hr. cbn [negb].
  destruct ev as [from d|e]; cbn [udp_goes_on] in HG.
  - assert (LG : lenN (takeN (lenN (uraw s)) d) <= bufsz c) by (rewrite lenN_takeN; lia).
    destruct (blit (uraw s) 0 (takeN (lenN (uraw s)) d)) as [raw'|b] eqn:EB; [|rewrite blit_ok in EB by lia; discriminate].
    cbn [bind]. pose proof (blit_len _ _ _ _ EB) as Lr'. pose proof (blit_take _ _ _ _ EB) as Htk. rewrite takeN_0, N.add_0_l in Htk. cbn [app] in Htk.
    destruct (N.ltb_spec 0 (lenN (takeN (lenN (uraw s)) d))) as [Hlt|Hlt].
    + unfold udp_parse. destruct (N.ltb_spec (bufsz c) (lenN (takeN (lenN (uraw s)) d))); [lia|].
      rewrite fetch_ok by lia. rewrite dropN_0, Htk. cbn [bind map uconn upeer utemp].
      destruct d as [|x d]; [exfalso; rewrite lenN_takeN in Hlt; change (lenN (@nil byte)) with 0 in Hlt; lia|]. cbn [udp_seen].
      rewrite L, Hc, Hp. replace (if conn then peer else if conn then utemp s else from) with (if conn then peer else from) by (destruct conn; reflexivity).
      eexists. split; [reflexivity|].
      unfold UI, udp_do_recv. cbn. repeat split; try assumption; try lia.
    + destruct d as [|x d]; [|exfalso; rewrite lenN_takeN in Hlt; pose proof (lenN_cons x d); lia].
      eexists. split; [reflexivity|]. unfold UI, udp_do_recv. cbn. repeat split; try assumption; try lia.
  - rewrite HG. eexists. split; [reflexivity|]. unfold UI, udp_do_recv. cbn. repeat split; try assumption. destruct (N.eqb_spec (lenN (uraw s)) 0); [lia|reflexivity].
Qed.

Lemma udp_run_ok conn peer : forall evs s, UI conn peer s -> forallb udp_goes_on evs = true ->
  exists s' os, udp_run c win s evs = Ok (s', os) /\ udp_msgs os = concat (map (udp_seen conn peer) evs) /\ existsb uo_err os = false /\ UI conn peer s'.
Proof.
  induction evs as [|e evs IH]; intros s HI HG; cbn [udp_run].
  - exists s, []. auto.
  - cbn [forallb] in HG. apply andb_prop in HG as [HG1 HG2].
    destruct (udp_step_ok _ _ _ _ HI HG1) as (s1 & -> & HI1). cbn [bind].
    destruct (IH _ HI1 HG2) as (s2 & os & -> & E & X & HI2). cbn [bind].
    exists s2. eexists. split; [reflexivity|]. unfold udp_msgs in *. cbn. rewrite E. auto.
Qed.

Lemma udp_init_I mem conn peer : lenN mem = bufsz c -> UI conn peer (udp_init mem conn peer).
Proof.
  pose proof bpos as BP. intros L. unfold UI, udp_init, udp_do_recv. cbn. repeat split; [assumption|].
  destruct (N.eqb_spec (lenN mem) 0); [lia|reflexivity].
Qed.
End Udp.
