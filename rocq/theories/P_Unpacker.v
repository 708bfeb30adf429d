(** Properties of the length-prefixed TCP receivers (C01-C05, C15, C60).
    The claims themselves (receives_frames, never_stops, rejects_bad_header, clean_after_break) are in S_Rx.v. *)
From Coq Require Import List NArith Bool Lia.
From Verif Require Import M_Bytes M_Config M_Rx M_Unpacker M_Flex M_NonCopy S_Frame S_Rx.
From Verif Require L_Unpacker L_Flex L_NonCopy.
Import ListNotations.
Open Scope N_scope.

(** C01: ext::unpacker, any configuration, any initial content of its buffer, any stream, any chunking *)
Theorem C01_unpacker_delivers_exactly : forall c mem,
  cfg_ok c = true -> lenN mem = bufsz c -> receives_frames c (unpacker c) (unp_init c mem).
Proof. intros c mem H L. exact (proj1 (L_Unpacker.unpacker_all c H mem L)). Qed.

Definition ex_cfg : cfg := mk_cfg 9 false true (2^64 - 1).
Definition ex_bodies : list (list byte) := [[Byte.x61; Byte.x62; Byte.x63]; []; [Byte.x64]; [Byte.x65; Byte.x66]].
(** cut inside headers and bodies; the last piece leaves the last frame incomplete *)
Definition ex_chunks : list (list byte) :=
  [[Byte.x00]; [Byte.x05; Byte.x61]; [Byte.x62; Byte.x63; Byte.x00; Byte.x02; Byte.x00; Byte.x03]; [Byte.x64; Byte.x00]; [Byte.x04; Byte.x65]].

Example C01_example : cfg_ok ex_cfg = true /\ lenN (repeat Byte.xff 9) = bufsz ex_cfg /\
  forallb (fits ex_cfg) ex_bodies = true /\ concat ex_chunks ++ [Byte.x66] = wire ex_cfg ex_bodies /\
  exists st o, run true (unpacker ex_cfg) (start_read (unpacker ex_cfg) (unp_init ex_cfg (repeat Byte.xff 9))) ex_chunks = Some (st, o)
    /\ all_msgs o = [[Byte.x61; Byte.x62; Byte.x63]; [Byte.x64]].
Proof. repeat split; try (vm_compute; reflexivity). eexists. eexists. split; vm_compute; reflexivity. Qed.
Print Assumptions C01_unpacker_delivers_exactly.

(** C02: any bytes, also malformed ones *)
Theorem C02_unpacker_never_stops : forall c mem,
  cfg_ok c = true -> lenN mem = bufsz c -> never_stops (unpacker c) (unp_init c mem).
Proof. intros c mem H L. exact (proj1 (proj2 (L_Unpacker.unpacker_all c H mem L))). Qed.

(** a run over a stream that turns into nonsense *)
Example C02_example : exists st o,
  run false (unpacker ex_cfg) (start_read (unpacker ex_cfg) (unp_init ex_cfg (repeat Byte.xff 9)))
      [[Byte.x00; Byte.x03; Byte.x61; Byte.xff]; [Byte.xff; Byte.x00; Byte.x00]; [Byte.x00]; [Byte.x03; Byte.x62]] = Some (st, o) /\ any_err o = true.
Proof. eexists. eexists. split; vm_compute; reflexivity. Qed.
Print Assumptions C02_unpacker_never_stops.

(** C03 *)
Theorem C03_unpacker_rejects_bad_header : forall c mem,
  cfg_ok c = true -> lenN mem = bufsz c -> rejects_bad_header c (unpacker c) (unp_init c mem).
Proof. intros c mem H L. exact (proj1 (proj2 (proj2 (L_Unpacker.unpacker_all c H mem L)))). Qed.

Example C03_example :
  let ds := [[Byte.x00; Byte.x03]] in let d := [Byte.x61; Byte.x00; Byte.x0a; Byte.x77] in
  let junk := [Byte.x00; Byte.x0a; Byte.x77; Byte.x78] in
  head_len ex_cfg <= lenN junk /\ bufsz ex_cfg < be_decode (takeN (head_len ex_cfg) junk) /\
  concat ds ++ d ++ [Byte.x78] = wire ex_cfg [[Byte.x61]] ++ junk /\
  (lenN (concat ds) < lenN (wire ex_cfg [[Byte.x61]]) + head_len ex_cfg <= lenN (concat ds) + lenN d) /\
  exists st o, run true (unpacker ex_cfg) (start_read (unpacker ex_cfg) (unp_init ex_cfg (repeat Byte.xff 9))) (ds ++ [d]) = Some (st, o).
Proof. cbv zeta. repeat split; try (vm_compute; congruence). eexists. eexists. vm_compute. reflexivity. Qed.
Print Assumptions C03_unpacker_rejects_bad_header.

(** C60 *)
Theorem C60_unpacker_clean_after_break : forall c mem,
  cfg_ok c = true -> lenN mem = bufsz c -> clean_after_break c (unpacker c) (unp_init c mem).
Proof. intros c mem H L. exact (proj2 (proj2 (proj2 (L_Unpacker.unpacker_all c H mem L)))). Qed.

(** the link breaks one byte before a message of three bytes is complete *)
Example C60_example : exists s,
  match run true (unpacker ex_cfg) (start_read (unpacker ex_cfg) (unp_init ex_cfg (repeat Byte.xff 9))) [[Byte.x00]; [Byte.x05; Byte.x61; Byte.x62]] with
  | Some (st, _) => read_error (unpacker ex_cfg) st = Ok (Some s, [])
  | None => False
  end.
Proof. eexists. vm_compute. reflexivity. Qed.
Print Assumptions C60_unpacker_clean_after_break.

(** C04: ext::flexible_unpacker with a fixed buffer of any size [fx] between header and size_t
    (in the code 4000), any content [g] of freshly allocated memory *)
Theorem C04_flexible_unpacker : forall c g fx mem,
  cfg_ok c = true -> head_len c <= fx -> fx < npos c -> lenN mem = fx ->
  receives_frames c (flexible_unpacker c g) (flex_init c mem) /\
  never_stops (flexible_unpacker c g) (flex_init c mem) /\
  rejects_bad_header c (flexible_unpacker c g) (flex_init c mem) /\
  clean_after_break c (flexible_unpacker c g) (flex_init c mem).
Proof. intros c g fx mem H H1 H2 L. exact (L_Flex.flex_all c g H fx H1 H2 mem L). Qed.

(** the size used in the code *)
Corollary C04_flexible_unpacker_4000 : forall c g mem, cfg_ok c = true -> lenN mem = flex_raw_size ->
  receives_frames c (flexible_unpacker c g) (flex_init c mem) /\
  never_stops (flexible_unpacker c g) (flex_init c mem) /\
  rejects_bad_header c (flexible_unpacker c g) (flex_init c mem) /\
  clean_after_break c (flexible_unpacker c g) (flex_init c mem).
Proof.
  intros c g mem H L. apply (C04_flexible_unpacker c g flex_raw_size mem H); [| |exact L].
  - unfold head_len, flex_raw_size. destruct (huge c); lia.
  - unfold cfg_ok in H. apply andb_prop in H as [_ H]. apply orb_prop in H.
    change (2^32 - 1) with 4294967295 in H. change (2^64 - 1) with 18446744073709551615 in H.
    unfold flex_raw_size. destruct H as [H|H]; apply N.eqb_eq in H; lia.
Qed.

(** bodies of 1, 5 (big buffer), 0, 2 bytes through a fixed buffer of 5 bytes *)
Definition ex_flex_bodies : list (list byte) :=
  [[Byte.x61]; [Byte.x62; Byte.x63; Byte.x64; Byte.x65; Byte.x66]; []; [Byte.x67; Byte.x68]].
Definition ex_flex_chunks : list (list byte) :=
  [[Byte.x00; Byte.x03; Byte.x61; Byte.x00; Byte.x07]; [Byte.x62; Byte.x63; Byte.x64]; [Byte.x65; Byte.x66]; [Byte.x00; Byte.x02; Byte.x00; Byte.x04]; [Byte.x67; Byte.x68]].
Example C04_example : forallb (fits ex_cfg) ex_flex_bodies = true /\ concat ex_flex_chunks ++ [] = wire ex_cfg ex_flex_bodies /\
  exists st o, run true (flexible_unpacker ex_cfg (fun _ => Byte.xee))
     (start_read (flexible_unpacker ex_cfg (fun _ => Byte.xee)) (flex_init ex_cfg (repeat Byte.xff 5))) ex_flex_chunks = Some (st, o)
    /\ all_msgs o = [[Byte.x61]; [Byte.x62; Byte.x63; Byte.x64; Byte.x65; Byte.x66]; [Byte.x67; Byte.x68]].
Proof. repeat split; try (vm_compute; reflexivity). eexists. eexists. split; vm_compute; reflexivity. Qed.
Print Assumptions C04_flexible_unpacker.
Print Assumptions C04_flexible_unpacker_4000.

(** C05: ext::non_copy_unpacker (which always strips the header) *)
Theorem C05_non_copy_unpacker : forall c g mem,
  cfg_ok c = true -> stripped c = true -> lenN mem = head_len c ->
  receives_frames c (non_copy_unpacker c g) (nc_init mem) /\
  never_stops (non_copy_unpacker c g) (nc_init mem) /\
  rejects_bad_header c (non_copy_unpacker c g) (nc_init mem) /\
  clean_after_break c (non_copy_unpacker c g) (nc_init mem).
Proof. intros c g mem H HS L. exact (L_NonCopy.non_copy_all c g H HS mem L). Qed.

Example C05_example : stripped ex_cfg = true /\
  exists st o, run false (non_copy_unpacker ex_cfg (fun _ => Byte.xee))
     (start_read (non_copy_unpacker ex_cfg (fun _ => Byte.xee)) (nc_init [Byte.xff; Byte.xff]))
     [[Byte.x00]; [Byte.x05]; [Byte.x61; Byte.x62]; [Byte.x63]; [Byte.x00; Byte.x02]; [Byte.x00; Byte.x03]; [Byte.x64]] = Some (st, o)
    /\ all_msgs o = [[Byte.x61; Byte.x62; Byte.x63]; [Byte.x64]].
Proof. split; [reflexivity|]. eexists. eexists. split; vm_compute; reflexivity. Qed.
Print Assumptions C05_non_copy_unpacker.

(** C15: two streams that differ only in heartbeats (empty bodies) make the application see the same
    messages once both have arrived completely; for each of the three receivers and any chunkings. *)
Theorem C15_heartbeats_invisible : forall (S : Type) c (u : unpk S) s0 bodies1 bodies2 awf1 awf2 ds1 ds2 st1 st2 o1 o2,
  receives_frames c u s0 ->
  forallb (fits c) bodies1 = true -> forallb (fits c) bodies2 = true ->
  filter nonempty bodies1 = filter nonempty bodies2 ->
  concat ds1 = wire c bodies1 -> concat ds2 = wire c bodies2 ->
  run awf1 u (start_read u s0) ds1 = Some (st1, o1) ->
  run awf2 u (start_read u s0) ds2 = Some (st2, o2) ->
  all_msgs o1 = all_msgs o2.
Proof.
  intros S c u s0 b1 b2 a1 a2 ds1 ds2 st1 st2 o1 o2 HR F1 F2 E W1 W2 R1 R2.
  assert (E1 : concat ds1 ++ [] = wire c b1) by (rewrite app_nil_r; exact W1).
  assert (E2 : concat ds2 ++ [] = wire c b2) by (rewrite app_nil_r; exact W2).
  destruct (HR a1 b1 ds1 [] st1 o1 F1 E1 R1) as [-> _].
  destruct (HR a2 b2 ds2 [] st2 o2 F2 E2 R2) as [-> _].
  rewrite W1, W2. unfold expected. rewrite !L_Frame.complete_all by reflexivity. unfold shown. rewrite E. reflexivity.
Qed.
Example C15_example : filter nonempty ex_bodies = filter nonempty [[]; [Byte.x61; Byte.x62; Byte.x63]; [Byte.x64]; []; []; [Byte.x65; Byte.x66]]
  /\ receives_frames ex_cfg (unpacker ex_cfg) (unp_init ex_cfg (repeat Byte.xff 9)).
Proof. split; [reflexivity|]. apply C01_unpacker_delivers_exactly; reflexivity. Qed.
Print Assumptions C15_heartbeats_invisible.
