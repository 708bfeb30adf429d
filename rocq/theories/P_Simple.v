(** Properties of the receivers without length information: fixed length, stream, datagrams (C09, C10, C56). *)
From Coq Require Import List NArith Bool Lia.
From Verif Require Import M_Bytes M_Config M_Rx M_Simple M_UdpRx.
From Verif Require L_Simple.
Import ListNotations.
Open Scope N_scope.

(** C09, fixed length [n]: for any bytes and any chunking the messages delivered so far all have length [n], and
    together with fewer than [n] pending bytes they are exactly the bytes received; no error; the receiver goes on
    reading inside of its buffer; a break of the link yields no message from the pending bytes. *)
Theorem C09_fixed_length_cuts_exactly : forall c n g awf s0 ds st o,
  fixed_ok c n = true ->
  run awf (fixed_unpacker n g) (start_read (fixed_unpacker n g) s0) ds = Some (st, o) ->
  exists tail, concat (all_msgs o) ++ tail = concat ds /\ Forall (fun m => lenN m = n) (all_msgs o) /\ lenN tail < n /\
    any_err o = false /\
    (exists s sp t lim, st = Reading s sp t lim /\ 0 < lim /\ t + lim <= sp /\ sp = lenN (xraw s)) /\
    (exists s, read_error (fixed_unpacker n g) st = Ok (Some s, [])).
Proof.
  intros c n g awf s0 ds st o H R. unfold fixed_ok in H. apply andb_prop in H as [H _]. apply N.ltb_lt in H.
  exact (L_Simple.fx_all n g H awf s0 ds st o R).
Qed.
Example C09_fixed_example : fixed_ok default_cfg 3 = true /\ fixed_ok default_cfg 4000 = true /\ fixed_ok default_cfg 4001 = false /\ exists st o,
  run true (fixed_unpacker 3 (fun _ => Byte.xee)) (start_read (fixed_unpacker 3 (fun _ => Byte.xee)) fx_init)
    [[Byte.x61]; [Byte.x62; Byte.x63]; [Byte.x64; Byte.x65; Byte.x66]; [Byte.x67]] = Some (st, o) /\
  all_msgs o = [[Byte.x61; Byte.x62; Byte.x63]; [Byte.x64; Byte.x65; Byte.x66]].
Proof. do 3 (split; [vm_compute; reflexivity|]). do 2 eexists. split; vm_compute; reflexivity. Qed.
Print Assumptions C09_fixed_length_cuts_exactly.

(** C09, stream: every block read is delivered as one message at once *)
Theorem C09_stream_delivers_every_read : forall c awf mem ds st o,
  cfg_ok c = true -> lenN mem = bufsz c ->
  run awf (stream_unpacker c) (start_read (stream_unpacker c) (sm_init mem)) ds = Some (st, o) ->
  all_msgs o = ds /\ any_err o = false /\
  exists s sp t lim, st = Reading s sp t lim /\ 0 < lim /\ t + lim <= sp /\ sp = lenN (xraw s).
Proof. intros c awf mem ds st o HC L R. exact (L_Simple.sm_all c HC awf mem ds st o L R). Qed.
Example C09_stream_example : exists st o,
  run false (stream_unpacker (mk_cfg 4 false true (2^64-1))) (start_read (stream_unpacker (mk_cfg 4 false true (2^64-1))) (sm_init (repeat Byte.xff 4)))
    [[Byte.x61]; [Byte.x62; Byte.x63; Byte.x64; Byte.x65]; [Byte.x66]] = Some (st, o) /\ length o = 3%nat.
Proof. do 2 eexists. split; vm_compute; reflexivity. Qed.
Print Assumptions C09_stream_delivers_every_read.

(** Specification of datagram reception: the non-empty datagrams that arrived, each with its sender, or with the
    peer's address on a connected socket. *)
Definition datagrams (connected : bool) (peer : addr) (ds : list (addr * list byte)) : list (addr * list byte) :=
  map (fun '(from, d) => (if connected then peer else from, d))
      (filter (fun '(_, d) => match d with [] => false | _ => true end) ds).

(** C10: datagrams that fit the buffer are delivered unchanged, one message each, in order, with the right address *)
Theorem C10_datagram_boundaries : forall c win mem connected peer ds,
  cfg_ok c = true -> lenN mem = bufsz c ->
  Forall (fun p => lenN (snd p) <= bufsz c) ds ->
  exists s os, udp_run c win (udp_init mem connected peer) (map (fun p => Arrive (fst p) (snd p)) ds) = Ok (s, os) /\
    udp_msgs os = datagrams connected peer ds /\ existsb uo_err os = false /\ ureceiving s = true.
Proof.
  intros c win mem connected peer ds HC L F.
  destruct (L_Simple.udp_run_ok c HC win connected peer (map (fun p => Arrive (fst p) (snd p)) ds) (udp_init mem connected peer)) as (s & os & E & M & X & HI).
  - apply L_Simple.udp_init_I; assumption.
  - clear. induction ds; [reflexivity|assumption].
  - exists s, os. repeat split; auto; [|apply HI]. rewrite M. clear - F. unfold datagrams.
    induction F as [|[from d] ds Hd F IH]; [reflexivity|]. cbn [map concat]. rewrite IH. cbn [fst snd L_Simple.udp_seen filter].
    destruct d as [|x d]; [reflexivity|]. cbn [app map]. do 3 f_equal. apply L_Bytes.takeN_all. exact Hd.
Qed.

(** a datagram longer than the buffer loses its end, still as one message *)
Theorem C10_long_datagrams_are_cut : forall c win mem connected peer ds,
  cfg_ok c = true -> lenN mem = bufsz c ->
  exists s os, udp_run c win (udp_init mem connected peer) (map (fun p => Arrive (fst p) (snd p)) ds) = Ok (s, os) /\
    udp_msgs os = datagrams connected peer (map (fun p => (fst p, takeN (bufsz c) (snd p))) ds) /\ ureceiving s = true.
Proof.
  intros c win mem connected peer ds HC L.
  destruct (L_Simple.udp_run_ok c HC win connected peer (map (fun p => Arrive (fst p) (snd p)) ds) (udp_init mem connected peer)) as (s & os & E & M & X & HI).
  - apply L_Simple.udp_init_I; assumption.
  - clear. induction ds; [reflexivity|assumption].
  - exists s, os. repeat split; auto; [|apply HI]. rewrite M. pose proof (L_Simple.bpos c HC) as BP. clear - BP. unfold datagrams.
    induction ds as [|[from d] ds IH]; [reflexivity|]. cbn [map concat]. rewrite IH. cbn [fst snd L_Simple.udp_seen filter].
    destruct d as [|x d]; [unfold takeN; rewrite firstn_nil; reflexivity|].
    destruct (takeN (bufsz c) (x :: d)) as [|y l] eqn:E2; [|reflexivity].
    apply (f_equal (@lenN byte)) in E2. rewrite L_Bytes.lenN_takeN, L_Bytes.lenN_cons in E2. change (lenN (@nil byte)) with 0 in E2. lia.
Qed.
Example C10_example : exists s os,
  udp_run (mk_cfg 4 false true (2^64-1)) false (udp_init (repeat Byte.xff 4) false 7)
    (map (fun p => Arrive (fst p) (snd p)) [(1, [Byte.x61; Byte.x62]); (2, []); (3, [Byte.x63; Byte.x64; Byte.x65; Byte.x66]); (1, [Byte.x67])]) = Ok (s, os) /\
  udp_msgs os = [(1, [Byte.x61; Byte.x62]); (3, [Byte.x63; Byte.x64; Byte.x65; Byte.x66]); (1, [Byte.x67])].
Proof. do 2 eexists. split; vm_compute; reflexivity. Qed.
Print Assumptions C10_datagram_boundaries.
Print Assumptions C10_long_datagrams_are_cut.

(** C56, wanted: after a transient error (a peer's port was closed for a moment) later datagrams still arrive *)
Definition C56_statement (win : bool) : Prop := forall c mem connected peer ds1 e ds2,
  cfg_ok c = true -> lenN mem = bufsz c -> e = ConnectionRefused \/ e = ConnectionReset ->
  Forall (fun p => lenN (snd p) <= bufsz c) ds1 -> Forall (fun p => lenN (snd p) <= bufsz c) ds2 ->
  exists s os, udp_run c win (udp_init mem connected peer)
     (map (fun p => Arrive (fst p) (snd p)) ds1 ++ [RecvError e] ++ map (fun p => Arrive (fst p) (snd p)) ds2) = Ok (s, os) /\
    udp_msgs os = datagrams connected peer (ds1 ++ ds2).

(** true if compiled for Windows *)
Theorem C56_windows_receives_on : C56_statement true.
Proof.
  intros c mem connected peer ds1 e ds2 HC L He F1 F2.
  destruct (L_Simple.udp_run_ok c HC true connected peer
    (map (fun p => Arrive (fst p) (snd p)) ds1 ++ [RecvError e] ++ map (fun p => Arrive (fst p) (snd p)) ds2) (udp_init mem connected peer)) as (s & os & E & M & X & HI).
  - apply L_Simple.udp_init_I; assumption.
  - assert (G : forall ds, forallb (L_Simple.udp_goes_on true) (map (fun p => Arrive (fst p) (snd p)) ds) = true) by (induction ds; auto).
    rewrite !forallb_app, !G. destruct He as [-> | ->]; reflexivity.
  - exists s, os. split; [exact E|]. rewrite M, !map_app, !concat_app. cbn [map concat L_Simple.udp_seen app].
    assert (G : forall ds, Forall (fun p => lenN (snd p) <= bufsz c) ds ->
       concat (map (L_Simple.udp_seen c connected peer) (map (fun p => Arrive (fst p) (snd p)) ds)) = datagrams connected peer ds).
    { intros ds F. unfold datagrams. induction F as [|[from d] ds Hd F IH]; [reflexivity|]. cbn [map concat]. rewrite IH. cbn [fst snd L_Simple.udp_seen filter].
      destruct d as [|x d]; [reflexivity|]. cbn [app map]. do 3 f_equal. apply L_Bytes.takeN_all. exact Hd. }
    rewrite !G by assumption. unfold datagrams. rewrite filter_app, map_app. reflexivity.
Qed.
(** false everywhere else: the first such error ends reception although the socket stays open *)
Theorem C56_refuted : exists c mem s os,
  cfg_ok c = true /\ lenN mem = bufsz c /\
  udp_run c false (udp_init mem false 7) [Arrive 1 [Byte.x61]; RecvError ConnectionRefused; Arrive 1 [Byte.x62]] = Ok (s, os) /\
  udp_msgs os = [(1, [Byte.x61])] /\ ureceiving s = false.
Proof. exists (mk_cfg 4 false true (2^64-1)), (repeat Byte.xff 4). do 2 eexists. repeat split; vm_compute; reflexivity. Qed.
Corollary C56_statement_refuted : ~ C56_statement false.
Proof.
  intros H. destruct (H (mk_cfg 4 false true (2^64-1)) (repeat Byte.xff 4) false 7 [(1, [Byte.x61])] ConnectionRefused [(1, [Byte.x62])]) as (s & os & E & M).
  - vm_compute; reflexivity.
  - reflexivity.
  - left; reflexivity.
  - repeat constructor; vm_compute; congruence.
  - repeat constructor; vm_compute; congruence.
  - vm_compute in E. inversion E; subst. vm_compute in M. discriminate.
Qed.
Print Assumptions C56_statement_refuted.
Example C56_example : exists s os, udp_run (mk_cfg 4 false true (2^64-1)) true (udp_init (repeat Byte.xff 4) false 7)
  [Arrive 1 [Byte.x61]; RecvError ConnectionReset; Arrive 1 [Byte.x62]] = Ok (s, os) /\ length (udp_msgs os) = 2%nat.
Proof. do 2 eexists. split; vm_compute; reflexivity. Qed.
Print Assumptions C56_windows_receives_on.
Print Assumptions C56_refuted.

(** Any other error (and every error elsewhere than on Windows) is reported once, and ends reception: nothing that comes later is delivered or reported. *)
Theorem C56_reported : forall c win mem connected peer ds e evs,
  cfg_ok c = true -> lenN mem = bufsz c -> e = OtherError \/ win = false -> Forall (fun p => lenN (snd p) <= bufsz c) ds ->
  exists s os, udp_run c win (udp_init mem connected peer) (map (fun p => Arrive (fst p) (snd p)) ds ++ RecvError e :: evs) = Ok (s, os) /\
    udp_msgs os = datagrams connected peer ds /\ map uo_err os = repeat false (length ds) ++ true :: repeat false (length evs) /\ ureceiving s = false.
Proof.
  intros c win mem connected peer ds e evs HC L He F.
  assert (DEAD : forall evs s, ureceiving s = false -> udp_run c win s evs = Ok (s, repeat (mk_uout [] false) (length evs))).
  { clear. induction evs as [|x evs IH]; intros s H; cbn [udp_run length repeat]; [reflexivity|]. unfold udp_step. rewrite H. cbn [negb bind]. rewrite (IH _ H). reflexivity. }
  assert (APP : forall l1 l2 s, udp_run c win s (l1 ++ l2) = bind (udp_run c win s l1) (fun '(s1, o1) => bind (udp_run c win s1 l2) (fun '(s2, o2) => Ok (s2, o1 ++ o2)))).
  { clear. induction l1 as [|x l1 IH]; intros l2 s; cbn [udp_run app bind]; [destruct (udp_run c win s l2) as [[? ?]|]; reflexivity|].
    destruct (udp_step c win s x) as [[s1 o]|]; cbn [bind]; [|reflexivity]. rewrite IH. destruct (udp_run c win s1 l1) as [[s2 o2]|]; cbn [bind]; [|reflexivity]. destruct (udp_run c win s2 l2) as [[s3 o3]|]; reflexivity. }
  destruct (C10_datagram_boundaries c win mem connected peer ds HC L F) as (s & os & E & M & X & R).
  assert (LEN : forall evs s s' os, udp_run c win s evs = Ok (s', os) -> length os = length evs).
  { clear. induction evs as [|x evs IH]; intros s s' os H; cbn [udp_run] in H; [injection H as <- <-; reflexivity|].
    destruct (udp_step c win s x) as [[s1 o]|]; cbn [bind] in H; [|discriminate]. destruct (udp_run c win s1 evs) as [[s2 os']|] eqn:E; cbn [bind] in H; [|discriminate]. injection H as <- <-. cbn. f_equal. exact (IH _ _ _ E). }
  rewrite APP, E. cbn [bind udp_run]. unfold udp_step. rewrite R. cbn [negb].
  replace (ignored win e) with false by (unfold ignored; destruct He as [-> | ->]; [destruct win|]; reflexivity). cbn [bind]. rewrite DEAD by reflexivity. cbn [bind].
  do 2 eexists. split; [reflexivity|]. split; [|split; [|reflexivity]].
  - unfold udp_msgs in *. rewrite map_app, concat_app, M. cbn. assert (Z : concat (map uo_msgs (repeat (mk_uout [] false) (length evs))) = []) by (clear; induction evs; [reflexivity|assumption]). rewrite Z. apply app_nil_r.
  - rewrite map_app. cbn. apply LEN in E. rewrite map_length in E. rewrite <- E. f_equal.
    + clear - X. induction os as [|o os IH]; [reflexivity|]. cbn in *. apply orb_false_iff in X. destruct X as (-> & X). rewrite (IH X). reflexivity.
    + f_equal. clear. induction evs; [reflexivity|]. cbn. congruence.
Qed.
Print Assumptions C56_reported.
Example C56_reported_example : exists s os, udp_run (mk_cfg 4 false true (2^64-1)) true (udp_init (repeat Byte.xff 4) false 7)
  [Arrive 1 [Byte.x61]; RecvError OtherError; Arrive 1 [Byte.x62]; RecvError OtherError] = Ok (s, os) /\ map uo_err os = [false; true; false; false] /\ udp_msgs os = [(1, [Byte.x61])].
Proof. do 2 eexists. split; [vm_compute; reflexivity|]. split; vm_compute; reflexivity. Qed.
