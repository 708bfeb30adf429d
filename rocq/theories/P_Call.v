(** C141: a send function that refuses a message changes nothing *)
From Coq Require Import List NArith Bool Lia.
From Verif Require Import M_Bytes M_Config M_PrefixSuffix M_Packer M_Queue M_Send M_Call S_Frame S_Packer S_Call.
From Verif Require P_Packer.
Import ListNotations.
Open Scope N_scope.

(** the full claim, for every packer whatever *)
Definition C141_statement : Prop := forall W limit sh p q k x gone q',
  do_call W limit sh p q k = Ok (false, x, gone, q') -> x = c_arg k /\ gone = [] /\ q' = q.

(** the send buffer is full, ST_ASIO_SHRINK_SEND_BUFFER is defined: the oldest message is discarded in favour of one that is then refused
    because it is too long *)
Definition tiny : cfg := mk_cfg 9 false true (2^64 - 1).
Theorem C141_refuted : exists gone q', do_call (2^64) 3 (Some default_shrink) (the_packer tiny true) (mk_q [[Byte.x61; Byte.x62]; [Byte.x63; Byte.x64]] 4)
    (mk_call Packed (AOne (repeat Byte.x65 8)) true false false) = Ok (false, AOne (repeat Byte.x65 8), gone, q') /\
  gone = [[Byte.x61; Byte.x62]] /\ qitems q' = [[Byte.x63; Byte.x64]].
Proof. do 2 eexists. split; [vm_compute; reflexivity|]. split; reflexivity. Qed.
Print Assumptions C141_refuted.
Theorem C141_statement_refuted : ~ C141_statement.
Proof. intro C. destruct C141_refuted as (gone & q' & D & G & _). destruct (C _ _ _ _ _ _ _ _ _ D) as (_ & H & _). rewrite G in H. discriminate H. Qed.
Print Assumptions C141_statement_refuted.

(** what holds: the caller keeps its message in any case; the send buffer is unchanged if nothing had to be discarded to make room *)
Theorem C141_refused_partial : forall W limit sh p q k x gone q', do_call W limit sh p q k = Ok (false, x, gone, q') ->
  x = c_arg k /\ (sh = None \/ c_overflow k = true \/ qtotal q < limit -> gone = [] /\ q' = q).
Proof.
  intros W limit sh p q k x gone q' D. unfold do_call in D.
  destruct (if c_overflow k then (true, [], q) else make_room W limit sh q) as [[room g] q1] eqn:R.
  assert (H : sh = None \/ c_overflow k = true \/ qtotal q < limit -> g = [] /\ q1 = q).
  { intros C. destruct (c_overflow k); [injection R as _ <- <-; auto|]. destruct C as [-> | [C | C]]; [cbn in R; injection R as _ <- <-; auto | discriminate C|].
    unfold make_room in R. destruct sh; [|injection R as _ <- <-; auto]. unfold shrink in R. apply N.ltb_lt in C. rewrite C in R. injection R as _ <- <-. auto. }
  destruct room; cbn [negb] in D; [|injection D as <- <- <-; auto].
  assert (P : forall r : res (option (list (list byte))), bind r (fun o => match o with Some ms => bind (put_all W (c_prior k) q1 ms) (fun q2 => Ok (true, given_away k, g, q2)) | None => Ok (false, c_arg k, g, q1) end) = Ok (false, x, gone, q') ->
    x = c_arg k /\ gone = g /\ q' = q1).
  { intros [[ms|]|b] E; cbn in E; [|injection E as <- <- <-; auto|discriminate E]. destruct (put_all W (c_prior k) q1 ms); cbn in E; discriminate E. }
  assert (PA : forall ms, bind (put_all W (c_prior k) q1 ms) (fun q2 => Ok (true, given_away k, g, q2)) = Ok (false, x, gone, q') -> False).
  { intros ms E. destruct (put_all W (c_prior k) q1 ms); cbn in E; discriminate E. }
  destruct (c_arg k) as [b|m|m1 m2|ms]; destruct (c_how k); try (destruct (PA _ D)); try discriminate D; try (destruct (P _ D) as (-> & -> & ->); auto);
    match type of D with bind ?r _ = _ => destruct r as [[ok m]|]; discriminate D end.
Qed.
Print Assumptions C141_refused_partial.
Example C141_refused_example : let q := mk_q [[Byte.x61; Byte.x62]; [Byte.x63; Byte.x64]] 4 in
  do_call (2^64) 3 None (the_packer tiny true) q (mk_call Native (ATwo [Byte.x65] [Byte.x66]) true false true) = Ok (false, ATwo [Byte.x65] [Byte.x66], [], q) /\
  do_call (2^64) 5 None (the_packer tiny true) q (mk_call Packed (AMany [repeat Byte.x65 4; repeat Byte.x66 4]) true false true) = Ok (false, AMany [repeat Byte.x65 4; repeat Byte.x66 4], [], q).
Proof. split; vm_compute; reflexivity. Qed.

(** ** an accepted message: what is taken from the caller, what is queued, what is discarded *)
Lemma room_splits W limit sh q k room g q1 : (if c_overflow k then (true, [], q) else make_room W limit sh q) = (room, g, q1) ->
  g ++ qitems q1 = qitems q /\ (sh = None \/ c_overflow k = true \/ qtotal q < limit -> g = []).
Proof.
  intros R. destruct (c_overflow k); [injection R as _ <- <-; auto|]. destruct sh as [calc|]; cbn in R; [|injection R as _ <- <-; auto].
  unfold shrink in R. destruct (N.ltb_spec (qtotal q) limit) as [L|L]; [injection R as _ <- <-; auto|].
  assert (Z : Some calc = None \/ false = true \/ qtotal q < limit -> False) by (intros [X|[X|X]]; [discriminate X|discriminate X|lia]).
  destruct (calc (qtotal q) =? 0); [injection R as _ <- <-; split; [reflexivity|intros X; destruct (Z X)]|].
  unfold q_out_bytes in R. destruct (calc (qtotal q) =? W - 1); [injection R as _ <- <-; split; [apply app_nil_r|intros X; destruct (Z X)]|].
  assert (T : forall l s a t b, take_bytes W s (calc (qtotal q)) l = (a, t, b) -> a ++ b = l).
  { induction l as [|m l IH]; intros s a t b E; cbn [take_bytes] in E; [injection E as <- _ <-; reflexivity|].
    destruct (calc (qtotal q) <=? (s + lenN m) mod W); [injection E as <- _ <-; reflexivity|].
    destruct (take_bytes W ((s + lenN m) mod W) (calc (qtotal q)) l) as [[a1 t1] b1] eqn:E1. injection E as <- _ <-. cbn. rewrite (IH _ _ _ _ E1). reflexivity. }
  destruct (take_bytes W 0 (calc (qtotal q)) (qitems q)) as [[a t] b] eqn:E. injection R as _ <- <-. split; [exact (T _ _ _ _ _ E)|intros X; destruct (Z X)].
Qed.
Lemma put_all_joins W prior q ms q2 : put_all W prior q ms = Ok q2 -> qitems q2 = joined prior (qitems q) ms.
Proof. unfold put_all, q_move_in, q_move_in_front, joined. destruct prior; destruct (_ || _); intros E; try discriminate E; injection E as <-; reflexivity. Qed.
Lemma put_all_ok W prior q ms : exists q2, put_all W prior q ms = Ok q2.
Proof. unfold put_all, q_move_in, q_move_in_front. rewrite N.eqb_refl, orb_true_r. destruct prior; eauto. Qed.
Lemma put_one_joins W prior q m : exists new, concat new = m /\ qitems (put_one W prior q m) = joined prior (qitems q) new.
Proof.
  destruct m as [|x m]; [exists []; unfold joined; split; [reflexivity|]; destruct prior; [reflexivity|symmetry; apply app_nil_r]|].
  exists [x :: m]. split; [apply app_nil_r|]. unfold put_one, joined. destruct prior; reflexivity.
Qed.
Lemma away_unless k : parts_with k = false -> given_away k = c_arg k.
Proof. unfold parts_with, given_away. destruct (c_arg k); auto; destruct (c_ref k); auto; discriminate. Qed.
Lemma away_gone k : parts_with k = true -> arg_body (given_away k) = [].
Proof.
  unfold parts_with, given_away. destruct (c_arg k) as [b|m|m1 m2|ms]; [discriminate| | |]; try (intros ->; reflexivity). intros _.
  destruct (c_how k); cbn [arg_body concat]; try reflexivity; induction ms; cbn; auto.
Qed.

(** the length-prefixed protocol: whatever is accepted has been joined to the send buffer as a whole, only the oldest messages were
    discarded, and the caller parts with exactly what it passed by reference *)
Theorem C141_accepted : forall W limit sh c nd q k x gone q', cfg_ok c = true -> bufsz c < head_range c -> arg_ok c (c_arg k) ->
  do_call W limit sh (the_packer c nd) q k = Ok (true, x, gone, q') ->
  (exists kept new, gone ++ kept = qitems q /\ qitems q' = joined (c_prior k) kept new /\ concat new = due c k) /\
  (sh = None \/ c_overflow k = true \/ qtotal q < limit -> gone = []) /\
  (if parts_with k then arg_body x = [] else x = c_arg k).
Proof.
  intros W limit sh c nd q k x gone q' HC HR HX D. unfold do_call in D.
  destruct (if c_overflow k then (true, [], q) else make_room W limit sh q) as [[room g] q1] eqn:R.
  destruct (room_splits _ _ _ _ _ _ _ _ R) as (S1 & S2). clear R. destruct room; cbn [negb] in D; [|discriminate D].
  assert (V : x = given_away k -> if parts_with k then arg_body x = [] else x = c_arg k).
  { intros ->. destruct (parts_with k) eqn:PW; [exact (away_gone _ PW)|exact (away_unless _ PW)]. }
  assert (A : forall ms, bind (put_all W (c_prior k) q1 ms) (fun q2 => Ok (true, given_away k, g, q2)) = Ok (true, x, gone, q') -> concat ms = due c k ->
    (exists kept new, gone ++ kept = qitems q /\ qitems q' = joined (c_prior k) kept new /\ concat new = due c k) /\ (sh = None \/ c_overflow k = true \/ qtotal q < limit -> gone = []) /\ (if parts_with k then arg_body x = [] else x = c_arg k)).
  { intros ms E F. destruct (put_all W (c_prior k) q1 ms) as [q2|] eqn:P; cbn in E; [|discriminate E]. injection E as <- <- <-. split; [|exact (conj S2 (V eq_refl))]. exists (qitems q1), ms. split; [exact S1|]. split; [exact (put_all_joins _ _ _ _ _ P)|exact F]. }
  assert (O : forall m, Ok (true, given_away k, g, put_one W (c_prior k) q1 m) = Ok (true, x, gone, q') -> m = due c k ->
    (exists kept new, gone ++ kept = qitems q /\ qitems q' = joined (c_prior k) kept new /\ concat new = due c k) /\ (sh = None \/ c_overflow k = true \/ qtotal q < limit -> gone = []) /\ (if parts_with k then arg_body x = [] else x = c_arg k)).
  { intros m E F. injection E as <- <- <-. split; [|exact (conj S2 (V eq_refl))]. destruct (put_one_joins W (c_prior k) q1 m) as (new & N1 & N2). exists (qitems q1), new. split; [exact S1|]. split; [exact N2|]. rewrite N1. exact F. }
  assert (Q : forall r : res (option (list (list byte))), (forall bs, c_arg k <> AArray bs) -> c_how k = Packed ->
    (forall ms, r = Ok (Some ms) -> send_msg c nd true (c_arg k) = Ok (true, ms)) ->
    bind r (fun o => match o with Some ms => bind (put_all W (c_prior k) q1 ms) (fun q2 => Ok (true, given_away k, g, q2)) | None => Ok (false, c_arg k, g, q1) end) = Ok (true, x, gone, q') ->
    (exists kept new, gone ++ kept = qitems q /\ qitems q' = joined (c_prior k) kept new /\ concat new = due c k) /\ (sh = None \/ c_overflow k = true \/ qtotal q < limit -> gone = []) /\ (if parts_with k then arg_body x = [] else x = c_arg k)).
  { intros r NA HP RS E. destruct r as [[ms|]|]; cbn [bind] in E; [|discriminate E|discriminate E]. refine (A ms E _).
    destruct (P_Packer.C62_true_means_queued_partial c nd true (c_arg k) true ms HC HR HX (RS ms eq_refl)) as (_ & T & _). rewrite (T eq_refl NA). unfold due. rewrite HP. destruct (c_arg k); [destruct (NA bufs eq_refl)| | |]; reflexivity. }
  destruct (c_arg k) as [b|m|m1 m2|ms] eqn:EA.
  - destruct b as [bs|]; [|destruct HX]. cbn [arg_ok] in HX. destruct HX as (X1 & X2). destruct (P_Packer.C11_pack_array_exact c bs HC X1 X2) as (E1 & E2). cbn [the_packer pk_array] in D.
    destruct (c_how k) eqn:EH; [rewrite E1 in D|rewrite E2 in D|rewrite E2 in D]; cbn [bind] in D.
    + destruct (fits c (concat (map buf_bytes bs))) eqn:F; refine (O _ D _); unfold due; rewrite EA, EH; cbn [arg_body]; rewrite F; reflexivity.
    + destruct (lenN (concat (map buf_bytes bs)) <=? bufsz c) eqn:F; refine (O _ D _); unfold due; rewrite EA, EH; cbn [arg_body]; rewrite F; reflexivity.
    + destruct (lenN (concat (map buf_bytes bs)) <=? bufsz c) eqn:F; refine (O _ D _); unfold due; rewrite EA, EH; cbn [arg_body]; rewrite F; reflexivity.
  - destruct (c_how k) eqn:EH; [|refine (O _ D _); unfold due; rewrite EA, EH; reflexivity..].
    refine (Q (pk_one (the_packer c nd) m) _ eq_refl _ D); [discriminate|]. intros ms E. unfold send_msg, send_items. cbn in *. rewrite E. reflexivity.
  - destruct (c_how k) eqn:EH; [|refine (A _ D _); unfold due; rewrite EA, EH; cbn; rewrite app_nil_r; reflexivity..].
    refine (Q (pk_two (the_packer c nd) m1 m2) _ eq_refl _ D); [discriminate|]. intros ms E. unfold send_msg, send_items. cbn in *. rewrite E. reflexivity.
  - destruct (c_how k) eqn:EH; [|refine (A _ D _); unfold due; rewrite EA, EH; reflexivity..].
    refine (Q (pk_many (the_packer c nd) ms) _ eq_refl _ D); [discriminate|]. intros ms' E. unfold send_msg, send_items. cbn in *. rewrite E. reflexivity.
Qed.
Print Assumptions C141_accepted.
Example C141_accepted_example : let q := mk_q [[Byte.x61; Byte.x62]; [Byte.x63; Byte.x64]] 4 in
  (exists q', do_call (2^64) 3 (Some default_shrink) (the_packer tiny true) q (mk_call Packed (ATwo [Byte.x65] [Byte.x66]) true false true) = Ok (true, ATwo [] [], [[Byte.x61; Byte.x62]], q') /\
    qitems q' = [[Byte.x00; Byte.x04]; [Byte.x65]; [Byte.x66]; [Byte.x63; Byte.x64]]) /\
  (exists q', do_call (2^64) 5 None (the_packer tiny true) q (mk_call Native (AMany [[Byte.x65]; []; [Byte.x66]]) false false false) = Ok (true, AMany [[]; []; []], [], q') /\
    qitems q' = [[Byte.x61; Byte.x62]; [Byte.x63; Byte.x64]; [Byte.x65]; []; [Byte.x66]] /\ qtotal q' = 6) /\
  cfg_ok tiny = true /\ bufsz tiny < head_range tiny /\ arg_ok tiny (ATwo [Byte.x65] [Byte.x66]).
Proof. split; [eexists; split; vm_compute; reflexivity|]. split; [eexists; split; [vm_compute; reflexivity|split; reflexivity]|]. split; [reflexivity|]. split; vm_compute; reflexivity. Qed.

(** ** a message is taken if it fits and there is room *)
Theorem C141_taken : forall W limit sh c nd q k, cfg_ok c = true -> bufsz c < head_range c -> arg_ok c (c_arg k) ->
  c_overflow k = true \/ qtotal q < limit -> (c_how k = Packed -> fits c (arg_body (c_arg k)) = true /\ arg_body (c_arg k) <> []) ->
  exists x q', do_call W limit sh (the_packer c nd) q k = Ok (true, x, [], q').
Proof.
  intros W limit sh c nd q k HC HR HX RM FT. unfold do_call.
  assert (R : (if c_overflow k then (true, [], q) else make_room W limit sh q) = (true, [], q)).
  { destruct (c_overflow k); [reflexivity|]. destruct RM as [X|X]; [discriminate X|]. apply N.ltb_lt in X. unfold make_room, shrink. rewrite X. destruct sh; reflexivity. }
  rewrite R. cbn [negb].
  assert (A : forall ms, exists x q', bind (put_all W (c_prior k) q ms) (fun q2 => Ok (true, given_away k, [], q2)) = Ok (true, x, ([] : list (list byte)), q')).
  { intros ms. destruct (put_all_ok W (c_prior k) q ms) as (q2 & E). rewrite E. do 2 eexists. reflexivity. }
  assert (SM : c_how k = Packed -> exists items, send_msg c nd true (c_arg k) = Ok (true, items)).
  { intros P. destruct (FT P) as (F & NE). destruct (P_Packer.C12_overloads_agree c nd nd (c_arg k) (c_arg k) HC HX HX eq_refl NE F) as (i1 & _ & E & _). exists i1. exact E. }
  destruct (c_arg k) as [b|m|m1 m2|ms] eqn:EA.
  - destruct b as [bs|]; [|destruct HX]. cbn [arg_ok] in HX. destruct HX as (X1 & X2). destruct (P_Packer.C11_pack_array_exact c bs HC X1 X2) as (E1 & E2). cbn [the_packer pk_array].
    destruct (c_how k); rewrite ?E1, ?E2; cbn [bind]; match goal with |- context [if ?b then (true, _) else _] => destruct b end; do 2 eexists; reflexivity.
  - destruct (c_how k); [|do 2 eexists; reflexivity..]. destruct (SM eq_refl) as (it & E). unfold send_msg, send_items in E. cbn in E |- *.
    destruct (pack_one c nd m) as [[ms|]|]; cbn [bind] in *; [apply A|discriminate E|discriminate E].
  - destruct (c_how k); [|apply A..]. destruct (SM eq_refl) as (it & E). unfold send_msg, send_items in E. cbn in E |- *.
    destruct (pack_two c nd m1 m2) as [[ms|]|]; cbn [bind] in *; [apply A|discriminate E|discriminate E].
  - destruct (c_how k); [|apply A..]. destruct (SM eq_refl) as (it & E). unfold send_msg, send_items in E. cbn in E |- *.
    destruct (pack_many c nd ms) as [[ms'|]|]; cbn [bind] in *; [apply A|discriminate E|discriminate E].
Qed.
Print Assumptions C141_taken.
Example C141_taken_example : fits tiny (arg_body (AMany [[Byte.x65]; [Byte.x66; Byte.x67]])) = true /\ arg_ok tiny (AMany [[Byte.x65]; [Byte.x66; Byte.x67]]) /\
  exists x q', do_call (2^64) 5 None (the_packer tiny false) (mk_q [[Byte.x61; Byte.x62]; [Byte.x63; Byte.x64]] 4) (mk_call Packed (AMany [[Byte.x65]; [Byte.x66; Byte.x67]]) true false false) = Ok (true, x, [], q') /\
    qitems q' = [[Byte.x61; Byte.x62]; [Byte.x63; Byte.x64]; [Byte.x00; Byte.x05]; [Byte.x65]; [Byte.x66; Byte.x67]].
Proof. split; [vm_compute; reflexivity|]. split; [vm_compute; reflexivity|]. do 2 eexists. split; vm_compute; reflexivity. Qed.
