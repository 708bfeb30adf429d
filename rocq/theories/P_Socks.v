(** C50-C52, C72, C73: SOCKS handshakes. *)
From Coq Require Import List NArith ZArith Bool Arith Lia ZifyBool ZifyNat ZifyN.
From Verif Require Import M_Bytes M_Socks S_Socks L_Bytes L_Socks.
Import ListNotations.
Open Scope N_scope.

(** ** C52: the request names the last target *)
(** what the caller of set_target_addr means *)
Definition named (parse : list byte -> option addr) (port : N) (ip : list byte) : dest * N :=
  match parse ip with Some (V4 a) => (DV4 a, port) | Some (V6 a) => (DV6 a, port) | None => (DName ip, port) end.
(** set_target_addr(port, ip) is the last successful target after calls [l], followed by set_auth only *)
Definition last_target (parse : list byte -> option addr) (l : list call) (port : N) (ip : list byte) (l2 : list call) : Prop :=
  fst (set_target parse (calls parse l) port ip) = true /\ port < 65536 /\ Forall (fun x => match x with CAuth _ _ => True | _ => False end) l2.
Definition C52_statement : Prop := forall parse l port ip l2 b, parser_ok parse -> last_target parse l port ip l2 -> length b = 64%nat ->
  exists q, written (send_request (calls parse (l ++ CTarget port ip :: l2)) b) = Ok q /\ dec_request q = Some (named parse port ip).
(** "1" is the address 1.1.1.1, everything else is a domain name *)
Definition ex_parse (ip : list byte) : option addr := match ip with [x31] => Some (V4 [x01; x01; x01; x01]) | _ => None end.
Lemma ex_parse_ok : parser_ok ex_parse.
Proof. intros ip a H. unfold ex_parse in H. destruct ip as [|x [|y l]]; try discriminate; [destruct x; try discriminate; inversion H; subst; reflexivity|destruct x; discriminate]. Qed.
(** False: once a domain name was set, an IP address has no effect. *)
Theorem C52_refuted : exists parse l port ip l2 b, parser_ok parse /\ last_target parse l port ip l2 /\ length b = 64%nat /\
  exists q, written (send_request (calls parse (l ++ CTarget port ip :: l2)) b) = Ok q /\ dec_request q = Some (DName [x61], 80) /\ named parse port ip = (DV4 [x01; x01; x01; x01], 81).
Proof.
  exists ex_parse, [CTarget 80 [x61]], 81, [x31], [], (repeat x00 64). split; [exact ex_parse_ok|]. split; [split; [reflexivity|]; split; [reflexivity|constructor]|]. split; [reflexivity|].
  eexists. split; [vm_compute; reflexivity|]. split; vm_compute; reflexivity.
Qed.
Print Assumptions C52_refuted.
Theorem C52_statement_refuted : ~ C52_statement.
Proof.
  intros H. destruct C52_refuted as (parse & l & port & ip & l2 & b & P & T & L & q & W & D & NM). destruct (H parse l port ip l2 b P T L) as (q' & W' & D').
  rewrite W in W'. inversion W'; subst q'. rewrite D, NM in D'. discriminate.
Qed.
Print Assumptions C52_statement_refuted.

Lemma dec_be2 p : p < 65536 -> port_of (be_encode 2 p) = Some p.
Proof.
  intros H. pose proof (be_decode_encode 2 p) as E. change (256 ^ N.of_nat 2) with 65536 in E. rewrite N.mod_small in E by exact H.
  pose proof (be_encode_len 2 p) as L. destruct (be_encode 2 p) as [|a [|b [|? ?]]]; try discriminate. unfold be_decode in E. cbn [fold_left] in E. unfold port_of. f_equal. lia.
Qed.
Lemma firstn_pre {A} k (a x : list A) : length a = k -> firstn k (a ++ x) = a.
Proof. intros <-. rewrite firstn_app, Nat.sub_diag, firstn_all. cbn [firstn]. apply app_nil_r. Qed.
Lemma skipn_pre {A} k (a x : list A) : length a = k -> skipn k (a ++ x) = x.
Proof. intros <-. rewrite skipn_app, Nat.sub_diag, skipn_all. reflexivity. Qed.
Definition dest_ok (d : dest) : Prop := match d with DV4 a => length a = 4%nat | DV6 a => length a = 16%nat | DName n => 0 < lenN n <= 255 end.
Lemma dec_enc d p : dest_ok d -> p < 65536 -> dec_addr (enc_dest d ++ be_encode 2 p) = Some (d, p).
Proof.
  intros D P. destruct d as [a|a|n]; cbn [dest_ok] in D; cbn [enc_dest app dec_addr].
  - rewrite (firstn_pre 4), (skipn_pre 4), D by exact D. change (4 =? 4)%nat with true. cbv iota. unfold with_port. rewrite (dec_be2 _ P). reflexivity.
  - rewrite (firstn_pre 16), (skipn_pre 16), D by exact D. change (16 =? 16)%nat with true. cbv iota. unfold with_port. rewrite (dec_be2 _ P). reflexivity.
  - rewrite to_N_byte_of_N, N.mod_small by lia. assert (E : length n = N.to_nat (lenN n)) by (unfold lenN; lia). rewrite (firstn_pre _ _ _ E), (skipn_pre _ _ _ E), <- E, Nat.eqb_refl.
    destruct (Nat.eqb_spec (length n) 0) as [E0|NE]; [unfold lenN in D; lia|]. cbn [negb andb]. unfold with_port. rewrite (dec_be2 _ P). reflexivity.
Qed.
Lemma aim_ok c : valid c -> dest_ok (fst (aim c)).
Proof.
  intros (A & D & _). unfold aim. destruct (N.eqb_spec (lenN (target_domain c)) 0); cbn [negb].
  - destruct (target_addr c); cbn [addr_ok] in A; cbn [fst dest_ok]; exact A.
  - cbn [fst dest_ok]. lia.
Qed.
Lemma written_request c b : valid c -> length b = 64%nat -> written (send_request c b) = Ok (req_bytes c).
Proof. intros V L. destruct (send_request_ok c b V) as (r & S & _); [unfold lenN, BUFF; lia|]. exact (send_ok _ _ _ S). Qed.
Lemma dec_req_bytes c : valid c -> snd (aim c) < 65536 -> dec_request (req_bytes c) = Some (aim c).
Proof. intros V P. unfold req_bytes. cbn [app dec_request]. rewrite (dec_enc _ _ (aim_ok _ V) P). destruct (aim c). reflexivity. Qed.

Lemma calls_app parse l1 l2 : calls parse (l1 ++ l2) = fold_left (apply parse) l2 (calls parse l1).
Proof. apply fold_left_app. Qed.
Lemma auth_aim parse l2 : Forall (fun x => match x with CAuth _ _ => True | _ => False end) l2 -> forall c, aim (fold_left (apply parse) l2 c) = aim c.
Proof.
  induction 1 as [|x l X F IH]; intros c; cbn [fold_left]; [reflexivity|]. rewrite IH. destruct x as [p ip|u w]; [contradiction|]. cbn [apply]. unfold set_auth. destruct (_ || _); reflexivity.
Qed.
(** no domain name was accepted before *)
Definition no_name_before (parse : list byte -> option addr) (l : list call) : Prop :=
  forall l1 p i l2, l = l1 ++ CTarget p i :: l2 -> parse i = None -> fst (set_target parse (calls parse l1) p i) = false.
Lemma no_name_domain parse l : no_name_before parse l -> target_domain (calls parse l) = [].
Proof.
  induction l as [|x l IH] using rev_ind; intros H; [reflexivity|]. rewrite calls_app. cbn [fold_left].
  assert (E : target_domain (calls parse l) = []). { apply IH. intros l1 p i l2 -> N. apply (H l1 p i (l2 ++ [x])); [rewrite <- app_assoc; reflexivity|exact N]. }
  destruct x as [p ip|u w]; cbn [apply].
  - specialize (H l p ip [] eq_refl). revert H. unfold set_target. destruct (_ || _); [intros _; exact E|]. destruct (parse ip); [intros _; exact E|]. destruct (_ <? _); [intros _; exact E|]. intros H. specialize (H eq_refl). discriminate.
  - unfold set_auth. destruct (_ || _); exact E.
Qed.
(** It holds for domain names, and for addresses if no domain name was set before. *)
Theorem C52_last_target_partial parse l port ip l2 b : parser_ok parse -> last_target parse l port ip l2 -> length b = 64%nat ->
  parse ip = None \/ no_name_before parse l ->
  exists q, written (send_request (calls parse (l ++ CTarget port ip :: l2)) b) = Ok q /\ dec_request q = Some (named parse port ip).
Proof.
  intros P (ST & PT & A) L C. set (c := calls parse (l ++ CTarget port ip :: l2)). assert (V : valid c) by (apply valid_calls; exact P).
  assert (AIM : aim c = named parse port ip).
  { unfold c. rewrite calls_app. cbn [fold_left]. rewrite auth_aim by exact A. cbn [apply]. revert ST. unfold set_target, named.
    destruct ((port =? 0) || (lenN ip =? 0)) eqn:Z; [discriminate|]. apply orb_false_iff in Z as (_ & Z2). destruct (parse ip) as [a|] eqn:PE.
    - intros _. destruct C as [C|C]; [discriminate|]. cbn [snd]. unfold aim. cbn [target_domain target_addr target_addr_port]. rewrite (no_name_domain _ _ C). reflexivity.
    - destruct (_ <? _); [discriminate|]. intros _. cbn [snd]. unfold aim. cbn [target_domain target_port]. rewrite Z2. reflexivity. }
  exists (req_bytes c). split; [apply written_request; assumption|]. rewrite <- AIM. apply dec_req_bytes; [exact V|]. rewrite AIM. unfold named. destruct (parse ip) as [[]|]; exact PT.
Qed.
Print Assumptions C52_last_target_partial.
Example C52_example : last_target ex_parse [CTarget 79 [x31]; CAuth [x75] [x70]] 80 [x61; x2e; x62] [CAuth [x76] [x70]] /\
  no_name_before ex_parse [CTarget 79 [x31]].
Proof.
  split; [split; [reflexivity|]; split; [reflexivity|]; constructor; [exact I|constructor]|]. intros [|x [|? ?]] p i l2 E N; cbn in E; inversion E; subst; cbn in *; try discriminate.
Qed.

(** ** C50: requests are encoded as the RFCs say *)
(** the methods: authentication is offered exactly if credentials were set *)
Theorem C50_methods c b : length b = 64%nat -> exists q s, hs_start c b = Ok (q, s) /\
  dec_methods q = Some (if (lenN (username c) =? 0) && (lenN (password c) =? 0) then [x00] else [x00; x02]).
Proof.
  intros L. destruct (send_method_ok c b) as (r & S & _); [unfold lenN, BUFF; lia|]. unfold hs_start. rewrite S. cbn [bind]. rewrite fetch_pre by (rewrite !lenN_cons; lia). cbn [bind].
  do 2 eexists. split; [reflexivity|]. unfold offered. destruct ((lenN (username c) =? 0) && (lenN (password c) =? 0)); vm_compute; reflexivity.
Qed.
Print Assumptions C50_methods.
(** the credentials: the setter refuses those that do not fit or are empty *)
Theorem C50_auth parse l usr pwd c b : parser_ok parse -> set_auth (calls parse l) usr pwd = (true, c) -> length b = 64%nat ->
  exists q, written (send_auth c b) = Ok q /\ dec_auth q = Some (usr, pwd).
Proof.
  intros P S L. assert (V : valid c). { assert (E : c = apply parse (calls parse l) (CAuth usr pwd)) by (cbn [apply]; rewrite S; reflexivity). rewrite E. apply valid_apply; [exact P|apply valid_calls; exact P]. }
  destruct (send_auth_ok c b V) as (r & SE & _); [unfold lenN, BUFF; lia|]. exists (auth_bytes c). split; [exact (send_ok _ _ _ SE)|]. clear SE.
  unfold set_auth in S. destruct (N.eqb_spec (lenN usr) 0) as [Z1|Z1]; [discriminate|]. destruct (N.eqb_spec (lenN pwd) 0) as [Z2|Z2]; [discriminate|]. cbn [orb] in S.
  destruct (N.ltb_spec 60 (lenN usr + lenN pwd)) as [Z3|Z3]; [discriminate|]. inversion S; subst c. clear S V. unfold auth_bytes. cbn [username password]. rewrite <- !app_assoc. cbn [app dec_auth].
  rewrite !to_N_byte_of_N, !N.mod_small by lia. unfold lenN in *. rewrite !Nat2N.id. rewrite skipn_app, skipn_all, Nat.sub_diag. cbn [skipn app]. rewrite to_N_byte_of_N, N.mod_small by lia. rewrite Nat2N.id, Nat.eqb_refl.
  rewrite firstn_app, firstn_all, Nat.sub_diag. cbn [firstn]. rewrite app_nil_r, Nat.eqb_refl.
  destruct (Nat.eqb_spec (length usr) 0); [lia|]. destruct (Nat.eqb_spec (length pwd) 0); [lia|]. reflexivity.
Qed.
Print Assumptions C50_auth.
(** the request of a socket to which one target was given *)
Theorem C50_request parse l port ip b : parser_ok parse -> last_target parse l port ip [] -> length b = 64%nat ->
  Forall (fun x => match x with CAuth _ _ => True | _ => False end) l ->
  exists q, written (send_request (calls parse (l ++ [CTarget port ip])) b) = Ok q /\ dec_request q = Some (named parse port ip).
Proof.
  intros P T L F. apply C52_last_target_partial; try assumption. right. intros l1 p i l2 E _. exfalso. subst l. rewrite Forall_app in F. destruct F as (_ & F). inversion F; subst. assumption.
Qed.
Print Assumptions C50_request.
(** exactly the targets that can be named are accepted *)
Theorem C50_target_accepted parse c port ip : fst (set_target parse c port ip) = true <->
  port <> 0 /\ ip <> [] /\ (parse ip <> None \/ (length ip <= 57)%nat).
Proof.
  unfold set_target. destruct (N.eqb_spec port 0) as [E|E]; cbn [orb fst]; [split; [discriminate|intros (X & _); congruence]|].
  destruct (N.eqb_spec (lenN ip) 0) as [Z|Z]; cbn [orb fst]; [apply lenN_0 in Z; split; [discriminate|intros (_ & X & _); congruence]|].
  assert (NE : ip <> []) by (intros X; subst; apply Z; reflexivity). destruct (parse ip).
  - cbn [fst]. split; [intros _|reflexivity]. split; [exact E|]. split; [exact NE|]. left. discriminate.
  - destruct (N.ltb_spec (BUFF - 7) (lenN ip)) as [K|K]; cbn [fst]; unfold BUFF, lenN in *.
    + split; [discriminate|]. intros (_ & _ & [X|X]); [congruence|lia].
    + split; [intros _|reflexivity]. split; [exact E|]. split; [exact NE|]. right. lia.
Qed.
Print Assumptions C50_target_accepted.
(** the socket negotiates with the proxy server exactly if the last call of set_target_addr was given a target that can be named *)
Theorem C50_negotiates parse l : on (calls parse l) = true <->
  exists l1 port ip l2, l = l1 ++ CTarget port ip :: l2 /\ Forall (fun x => match x with CAuth _ _ => True | _ => False end) l2 /\
    port <> 0 /\ ip <> [] /\ (parse ip <> None \/ (length ip <= 57)%nat).
Proof.
  induction l as [|x l IH] using rev_ind; [split; [discriminate|intros ([|? ?] & ? & ? & ? & E & _); discriminate E]|].
  rewrite calls_app. cbn [fold_left]. destruct x as [p i|u w]; cbn [apply].
  - assert (S : on (snd (set_target parse (calls parse l) p i)) = fst (set_target parse (calls parse l) p i))
      by (unfold set_target; destruct (_ || _); [reflexivity|]; destruct (parse i); [reflexivity|]; destruct (_ <? _); reflexivity).
    rewrite S, C50_target_accepted. split.
    + intros A. exists l, p, i, []. split; [reflexivity|]. split; [constructor|exact A].
    + intros (l1 & p' & i' & l2 & E & F & A). destruct l2 as [|y l2] using rev_ind; [apply app_inj_tail in E as (_ & E); injection E as -> ->; exact A|].
      rewrite app_comm_cons, app_assoc in E. apply app_inj_tail in E as (_ & E). subst y. apply Forall_app in F as (_ & F). inversion F; contradiction.
  - assert (S : on (snd (set_auth (calls parse l) u w)) = on (calls parse l)) by (unfold set_auth; destruct (_ || _); reflexivity).
    rewrite S, IH. split; intros (l1 & p & i & l2 & E & F & A).
    + exists l1, p, i, (l2 ++ [CAuth u w]). split; [rewrite E, <- app_assoc; reflexivity|]. split; [apply Forall_app; split; [exact F|constructor; [exact I|constructor]]|exact A].
    + destruct l2 as [|y l2] using rev_ind; [apply app_inj_tail in E as (_ & E); discriminate E|].
      rewrite app_comm_cons, app_assoc in E. apply app_inj_tail in E as (E & _). exists l1, p, i, l2. split; [exact E|]. split; [apply Forall_app in F as (F & _); exact F|exact A].
Qed.
Print Assumptions C50_negotiates.
Example C50_negotiates_example : on (calls ex_parse [CTarget 79 [x31]; CAuth [x75] [x70]]) = true /\ on (calls ex_parse [CTarget 79 [x31]; CTarget 0 [x31]]) = false.
Proof. split; vm_compute; reflexivity. Qed.
(** SOCKS4 *)
Theorem C50_socks4 parse port ip b r : parser_ok parse -> port < 65536 -> length b = 16%nat -> socks4_request parse b port ip = Some r ->
  exists q a, written r = Ok q /\ parse ip = Some (V4 a) /\ dec_socks4 q = Some (a, port, [x73; x74; x5f; x61; x73; x69; x6f]).
Proof.
  intros P PT L H. unfold socks4_request in H. destruct (_ || _); [discriminate|]. destruct (parse ip) as [[a|a]|] eqn:E; try discriminate. pose proof (P _ _ E) as A. cbn in A.
  do 16 (destruct b as [|? b]; [discriminate|]). destruct b; [|discriminate]. do 4 (destruct a as [|? a]; [discriminate|]). destruct a; [|discriminate].
  pose proof (dec_be2 _ PT) as D. pose proof (be_encode_len 2 port) as BL. destruct (be_encode 2 port) as [|p1 [|p2 [|? ?]]]; try discriminate. cbn in D.
  inversion H; subst r. eexists _, _. split; [vm_compute; reflexivity|]. split; [reflexivity|]. unfold dec_socks4. replace (Byte.to_N p1 * 256 + Byte.to_N p2) with port by congruence. vm_compute. reflexivity.
Qed.
Print Assumptions C50_socks4.
Example C50_example : last_target ex_parse [CAuth [x75] [x70]] 443 [x61; x2e; x62] [] /\ fst (set_auth s5_init [x75; x31] [x70]) = true /\
  (exists r, socks4_request ex_parse (repeat x00 16) 80 [x31] = Some r) /\ dec_request [x05; x01; x00; x03; x01; x61; x00; x50] = Some (DName [x61], 80).
Proof. split; [split; [reflexivity|]; split; [reflexivity|constructor]|]. split; [reflexivity|]. split; [eexists; reflexivity|reflexivity]. Qed.

(** ** C51: the outcome does not depend on fragmentation *)
(** the proxy's answers arrive in pieces [cs]; the last one may share a piece with bytes [extra] that the proxied peer sent *)
Definition outcome_of (t : talk) (r : result) : Prop := if granted t then r = Connected else r = Closed.
Definition all_bytes (l : list event) : list byte := concat (map (fun e => match fst e with Some b => b | None => [] end) l).
Definition C51_statement : Prop := forall parse l b q s t extra cs evs, parser_ok parse -> length b = 64%nat ->
  hs_start (calls parse l) b = Ok (q, s) -> wf_talk t ->
  in_pieces (match rev (answers t) with a :: rest => rev rest ++ [a ++ extra] | [] => [] end) cs ->
  exists qs r rest, hs_run (calls parse l) s (evs_of cs ++ evs) = Some (Ok (qs, r, rest)) /\ outcome_of t r /\
    (granted t = true -> exists mine, rest = mine ++ evs /\ all_bytes mine = extra).
(** False: bytes of the peer that arrive together with the reply make the handshake fail, ... *)
Definition ex_cs : list (list byte) := [[x05; x00]; [x05; x00; x00; x01; x01; x02; x03; x04; x00; x50; x48]].
Theorem C51_refuted : exists s q, hs_start s5_init (repeat x00 64) = Ok (q, s) /\ let t := TNoAuth [x05; x00; x00; x01; x01; x02; x03; x04; x00; x50] in wf_talk t /\ granted t = true /\
  hs_run s5_init s (evs_of ex_cs) = Some (Ok ([[x05; x01; x00; x01; x00; x00; x00; x00; x00; x00]], Closed, [])).
Proof. do 2 eexists. split; [vm_compute; reflexivity|]. cbn zeta. split; [vm_compute; discriminate|]. split; vm_compute; reflexivity. Qed.
Print Assumptions C51_refuted.
Definition long_reply (k : byte) : list byte := [x05; x00; x00; x03; k] ++ repeat x61 (N.to_nat (Byte.to_N k)) ++ [x00; x50].
(** ... a reply with a bound domain of 58 characters is too long for the buffer, ... *)
Theorem C51_long_reply_refuted : exists s q, hs_start s5_init (repeat x00 64) = Ok (q, s) /\ let t := TNoAuth (long_reply x3a) in wf_talk t /\ granted t = true /\
  exists qs rest, hs_run s5_init s (evs_of [[x05; x00]; firstn 64 (long_reply x3a); skipn 64 (long_reply x3a)]) = Some (Ok (qs, Closed, rest)).
Proof. do 2 eexists. split; [vm_compute; reflexivity|]. cbn zeta. split; [vm_compute; discriminate|]. split; [vm_compute; reflexivity|]. do 2 eexists. vm_compute. reflexivity. Qed.
Print Assumptions C51_long_reply_refuted.
(** ... and with one of 255 characters the connection is reported after 6 bytes, so that the rest of the reply is taken for application data. *)
Theorem C51_negative_length_refuted : exists s q, hs_start s5_init (repeat x00 64) = Ok (q, s) /\ let t := TNoAuth (long_reply xff) in wf_talk t /\ granted t = true /\
  exists qs rest, hs_run s5_init s (evs_of [[x05; x00]; firstn 6 (long_reply xff); skipn 6 (long_reply xff)]) = Some (Ok (qs, Connected, rest)) /\ rest <> [].
Proof. do 2 eexists. split; [vm_compute; reflexivity|]. cbn zeta. split; [vm_compute; discriminate|]. split; [vm_compute; reflexivity|]. do 2 eexists. split; [vm_compute; reflexivity|discriminate]. Qed.
Print Assumptions C51_negative_length_refuted.
Lemma noparse_ok : parser_ok (fun _ => None).
Proof. intros ip a H. discriminate. Qed.
Theorem C51_statement_refuted : ~ C51_statement.
Proof.
  intros H. destruct C51_refuted as (s & q & S & W & G & R). specialize (H (fun _ => None) [] (repeat x00 64) q s (TNoAuth [x05; x00; x00; x01; x01; x02; x03; x04; x00; x50]) [x48] ex_cs [] noparse_ok eq_refl S W).
  destruct H as (qs & r & rest & R' & O & _).
  - cbn. change ex_cs with ([[x05; x00]] ++ [[x05; x00; x00; x01; x01; x02; x03; x04; x00; x50; x48]] ++ []). apply ip_cons; [split; [reflexivity|constructor; [discriminate|constructor]]|]. apply ip_cons; [split; [reflexivity|constructor; [discriminate|constructor]]|constructor].
  - rewrite app_nil_r in R'. cbn [calls fold_left] in R'. change (calls (fun _ => None) []) with s5_init in R'. rewrite R in R'. inversion R'; subst. unfold outcome_of in O. rewrite G in O. discriminate.
Qed.
Print Assumptions C51_statement_refuted.

Lemma at_app p q i : (i < length p)%nat -> at_ (p ++ q) i = at_ p i.
Proof. intros H. unfold at_. apply app_nth1. exact H. Qed.
Lemma judge_short step p : (step = 1 \/ step = 2) -> lenN p < 2 -> judge step p (lenN p) = Again.
Proof. intros [-> | ->] H; unfold judge; destruct (N.ltb_spec (lenN p) 2); (reflexivity || lia). Qed.
Lemma two_prefix (a b : byte) p q : [a; b] = p ++ q -> q <> [] -> lenN p < 2.
Proof. intros E N. pose proof (f_equal (@length byte) E) as L. rewrite app_length in L. cbn in L. unfold lenN. destruct q; [congruence|]. cbn [length] in L. lia. Qed.
(** shape of a reply *)
Lemma reply_shape r cc : rep_of r = Some cc -> exists rr d p, r = x05 :: cc :: x00 :: rr /\ dec_addr rr = Some (d, p).
Proof.
  unfold rep_of. destruct r as [|v [|c0 [|z rr]]]; [discriminate|destruct v; discriminate|destruct v; discriminate|]. destruct v; try discriminate. destruct z; try discriminate. destruct (dec_addr rr) as [[d p]|] eqn:E; [|discriminate].
  intros H. inversion H; subst. eauto.
Qed.
Lemma port_len l p : port_of l = Some p -> length l = 2%nat.
Proof. destruct l as [|a [|b [|? ?]]]; try discriminate. reflexivity. Qed.
Lemma addr_shape rr d p : dec_addr rr = Some (d, p) ->
  (exists t, rr = x01 :: t /\ length t = 6%nat) \/ (exists t, rr = x04 :: t /\ length t = 18%nat) \/
  (exists k t, rr = x03 :: k :: t /\ length t = (N.to_nat (Byte.to_N k) + 2)%nat /\ Byte.to_N k <> 0).
Proof.
  destruct rr as [|ty t]; [discriminate|]. destruct ty; try discriminate; cbn [dec_addr]; intros H.
  - left. exists t. split; [reflexivity|]. destruct (Nat.eqb_spec (length (firstn 4 t)) 4) as [E|]; [|discriminate]. unfold with_port in H. destruct (port_of (skipn 4 t)) eqn:P; [|discriminate]. apply port_len in P. rewrite firstn_length in E. rewrite skipn_length in P. lia.
  - right. right. destruct t as [|k t]; [discriminate|]. exists k, t. split; [reflexivity|]. destruct (Nat.eqb_spec (length (firstn (N.to_nat (Byte.to_N k)) t)) (N.to_nat (Byte.to_N k))) as [E|]; [|discriminate].
    destruct (Nat.eqb_spec (N.to_nat (Byte.to_N k)) 0); [discriminate|]. cbn [andb negb] in H. unfold with_port in H. destruct (port_of _) eqn:P; [|discriminate]. apply port_len in P. rewrite firstn_length in E. rewrite skipn_length in P. split; lia.
  - right. left. exists t. split; [reflexivity|]. destruct (Nat.eqb_spec (length (firstn 16 t)) 16) as [E|]; [|discriminate]. unfold with_port in H. destruct (port_of (skipn 16 t)) eqn:P; [|discriminate]. apply port_len in P. rewrite firstn_length in E. rewrite skipn_length in P. lia.
Qed.
Lemma reply_len r cc : rep_of r = Some cc -> (6 <= length r)%nat.
Proof. intros H. destruct (reply_shape _ _ H) as (rr & d & p & -> & A). destruct (addr_shape _ _ _ A) as [(t & -> & L)|[(t & -> & L)|(k & t & -> & L & _)]]; cbn [length]; lia. Qed.
Lemma byte_small k : Byte.to_N k < 128 -> schar k = Z.of_N (Byte.to_N k).
Proof. intros H. unfold schar. destruct (Z.ltb_spec (Z.of_N (Byte.to_N k)) 128); lia. Qed.
Lemma judge_reply r p q : rep_of r = Some x00 -> lenN r <= BUFF -> r = p ++ q -> judge 3 p (lenN p) = if lenN q =? 0 then Granted else Again.
Proof.
  intros H L E. unfold judge. destruct (N.ltb_spec (lenN p) 6) as [S|S].
  - pose proof (reply_len _ _ H) as RL. rewrite E, app_length in RL. unfold lenN in *. destruct (N.eqb_spec (N.of_nat (length q)) 0); [lia|reflexivity].
  - assert (AT : forall i, (i < 6)%nat -> at_ p i = at_ r i) by (intros i I; rewrite E; symmetry; apply at_app; unfold lenN in S; lia).
    assert (TOT : lenN r = lenN p + lenN q) by (rewrite E; apply lenN_app). rewrite !AT by lia. clear AT E S. destruct (reply_shape _ _ H) as (rr & d & pt & -> & A). unfold BUFF in L. cbn [at_ nth Byte.eqb].
    unfold at_. cbn [nth].
    destruct (addr_shape _ _ _ A) as [(t & -> & LT)|[(t & -> & LT)|(k & t & -> & LT & KN)]]; cbn [nth].
    + change (Byte.eqb x00 x00) with true. change (Byte.eqb x01 x01) with true. cbv iota. rewrite !lenN_cons in *. unfold lenN in *. destruct (N.ltb_spec (N.of_nat (length p)) (6 + 4)); destruct (N.eqb_spec (N.of_nat (length q)) 0); try lia; try reflexivity. destruct (N.ltb_spec (6 + 4) (N.of_nat (length p))); [lia|reflexivity].
    + change (Byte.eqb x00 x00) with true. change (Byte.eqb x04 x01) with false. change (Byte.eqb x04 x03) with false. change (Byte.eqb x04 x04) with true. cbv iota. rewrite !lenN_cons in *. unfold lenN in *. destruct (N.ltb_spec (N.of_nat (length p)) (6 + 16)); destruct (N.eqb_spec (N.of_nat (length q)) 0); try lia; try reflexivity. destruct (N.ltb_spec (6 + 16) (N.of_nat (length p))); [lia|reflexivity].
    + change (Byte.eqb x00 x00) with true. change (Byte.eqb x03 x01) with false. change (Byte.eqb x03 x03) with true. cbv iota. rewrite !lenN_cons in *. unfold lenN in *. rewrite byte_small by lia.
      rewrite Z.mod_small by (unfold SIZE_RANGE; lia). replace (Z.to_N (6 + 1 + Z.of_N (Byte.to_N k))) with (7 + Byte.to_N k) by lia.
      destruct (N.ltb_spec (N.of_nat (length p)) (7 + Byte.to_N k)); destruct (N.eqb_spec (N.of_nat (length q)) 0); try lia; try reflexivity. destruct (N.ltb_spec (7 + Byte.to_N k) (N.of_nat (length p))); [lia|reflexivity].
Qed.
Lemma judge_negative r cc p q : rep_of r = Some cc -> cc <> x00 -> r = p ++ q -> judge 3 p (lenN p) = if lenN p <? 6 then Again else Refused.
Proof.
  intros H NZ E. unfold judge. destruct (N.ltb_spec (lenN p) 6) as [S|S]; [reflexivity|]. assert (AT : at_ p 1 = cc).
  { rewrite <- (at_app p q 1) by (unfold lenN in S; lia). rewrite <- E. destruct (reply_shape _ _ H) as (rr & d & pt & -> & A). reflexivity. }
  rewrite AT. destruct (Byte.eqb cc x00) eqn:B; [|reflexivity]. apply byte_eqb_eq in B. contradiction.
Qed.
Lemma end_reply c b r cs evs : lenN b = BUFF -> rep_of r <> None -> lenN r <= BUFF -> pieces r cs ->
  exists rest, hs_run c (mk_hs 3 b 0) (evs_of cs ++ evs) = Some (Ok ([], match rep_of r with Some x00 => Connected | _ => Closed end, rest)) /\ (rep_of r = Some x00 -> rest = evs).
Proof.
  intros L W LR PC. destruct (rep_of r) as [cc|] eqn:E; [|congruence]. assert (NE : r <> []) by (intros X; subst; discriminate).
  pose proof (pieces_nonempty _ _ PC NE) as CN. destruct PC as (CC & NN). change 0 with (lenN (@nil byte)).
  destruct (Byte.byte_eq_dec cc x00) as [->|NZ].
  - destruct (run_exact c 3 r Granted ltac:(discriminate)) with (cs := cs) (got := @nil byte) (b := b) (evs := evs) as (b' & _ & R); try assumption; try reflexivity.
    + rewrite (judge_reply r r [] E LR (eq_sym (app_nil_r r))). reflexivity.
    + intros p q EQ NQ. rewrite (judge_reply r p q E LR EQ). destruct (N.eqb_spec (lenN q) 0) as [Z|]; [apply lenN_0 in Z; contradiction|reflexivity].
    + exists evs. split; [|reflexivity]. rewrite R. reflexivity.
  - destruct (run_refused c 3 r) with (cs := cs) (got := @nil byte) (b := b) (evs := evs) as (rest & R); try assumption; try reflexivity.
    + rewrite (judge_negative r cc r [] E NZ (eq_sym (app_nil_r r))). pose proof (reply_len _ _ E) as RL. destruct (N.ltb_spec (lenN r) 6); [unfold lenN in *; lia|reflexivity].
    + intros p q EQ. rewrite (judge_negative r cc p q E NZ EQ). destruct (lenN p <? 6); auto.
    + exists rest. split; [|intros X; congruence]. rewrite R. destruct cc; try reflexivity. congruence.
Qed.
Lemma judge2 step a m : (step = 1 \/ step = 2) -> judge step [a; m] (lenN [a; m]) =
  match step with 1 => if Byte.eqb m x00 then SkipAuth else if Byte.eqb m x02 then SendAuth else Refused | _ => if Byte.eqb m x00 then SendReq else Refused end.
Proof. intros [-> | ->]; reflexivity. Qed.
Lemma first_answer c step b a m cs evs : (step = 1 \/ step = 2) -> lenN b = BUFF -> pieces [a; m] cs ->
  let v := judge step [a; m] 2 in
  exists b', lenN b' = BUFF /\ hs_run c (mk_hs step b 0) (evs_of cs ++ evs) = resume c step b' v true evs.
Proof.
  intros ST L PC v. pose proof (pieces_nonempty _ _ PC ltac:(discriminate)) as CN. destruct PC as (CC & NN). change 0 with (lenN (@nil byte)).
  apply run_exact with (ans := [a; m]); try assumption; try reflexivity.
  - unfold v. change 2 with (lenN [a; m]). rewrite (judge2 step a m ST). destruct ST as [-> | ->]; cbv iota; destruct (Byte.eqb m x00); try discriminate; destruct (Byte.eqb m x02); discriminate.
  - unfold BUFF. vm_compute. discriminate.
  - intros p q E N. apply judge_short; [exact ST|]. exact (two_prefix _ _ _ _ E N).
Qed.
Lemma start_state c b q s : length b = 64%nat -> hs_start c b = Ok (q, s) -> exists b', s = mk_hs 1 b' 0 /\ lenN b' = BUFF.
Proof.
  intros L H. destruct (send_method_ok c b) as (r & S & LB); [unfold lenN, BUFF; lia|]. unfold hs_start in H. rewrite S in H. cbn [bind] in H. rewrite fetch_pre in H by (rewrite !lenN_cons; lia). cbn [bind] in H. inversion H; subst. eauto.
Qed.
Lemma evs_of_app a b : evs_of (a ++ b) = evs_of a ++ evs_of b.
Proof. apply map_app. Qed.
(** It holds if the reply fits the buffer and shares no piece with the peer's bytes. *)
Theorem C51_fragmentation_partial parse l b q s t cs evs : parser_ok parse -> length b = 64%nat ->
  hs_start (calls parse l) b = Ok (q, s) -> wf_talk t -> Forall (fun a => (length a <= 64)%nat) (answers t) -> in_pieces (answers t) cs ->
  exists qs r rest, hs_run (calls parse l) s (evs_of cs ++ evs) = Some (Ok (qs, r, rest)) /\ outcome_of t r /\ (granted t = true -> rest = evs).
Proof.
  intros P L HS W F IP. pose proof (valid_calls parse l P) as V. set (c := calls parse l) in *. clearbody c. destruct (start_state _ _ _ _ L HS) as (b0 & -> & L0). clear HS L. unfold outcome_of.
  destruct t as [r|r|st|m]; cbn [answers wf_talk granted] in *.
  - inversion IP as [|? ? c1 d1 P1 IP1]; subst. inversion IP1 as [|? ? c2 d2 P2 IP2]; subst. inversion IP2; subst. rewrite app_nil_r. rewrite evs_of_app, <- app_assoc.
    destruct (first_answer c 1 b0 x05 x00 c1 (evs_of c2 ++ evs) (or_introl eq_refl) L0 P1) as (b1 & L1 & R1). rewrite R1. change (judge 1 [x05; x00] 2) with SkipAuth.
    destruct (resume_request c 1 b1 (evs_of c2 ++ evs) SkipAuth (or_introl (conj eq_refl eq_refl)) V L1) as (b2 & L2 & R2). rewrite R2.
    apply Forall_cons_iff in F as (_ & F). apply Forall_cons_iff in F as (F & _).
    destruct (end_reply c b2 r c2 evs L2 W) as (rest & R3 & RE); [unfold lenN, BUFF; lia|exact P2|]. rewrite R3. do 3 eexists. split; [reflexivity|]. destruct (rep_of r) as [[]|]; split; try reflexivity; try discriminate. intros _. apply RE. reflexivity.
  - inversion IP as [|? ? c1 d1 P1 IP1]; subst. inversion IP1 as [|? ? c2 d2 P2 IP2]; subst. inversion IP2 as [|? ? c3 d3 P3 IP3]; subst. inversion IP3; subst. rewrite app_nil_r. rewrite !evs_of_app, <- !app_assoc.
    destruct (first_answer c 1 b0 x05 x02 c1 (evs_of c2 ++ evs_of c3 ++ evs) (or_introl eq_refl) L0 P1) as (b1 & L1 & R1). rewrite R1. change (judge 1 [x05; x02] 2) with SendAuth.
    destruct (resume_auth c b1 (evs_of c2 ++ evs_of c3 ++ evs) V L1) as (b2 & L2 & R2). rewrite R2.
    destruct (first_answer c 2 b2 x01 x00 c2 (evs_of c3 ++ evs) (or_intror eq_refl) L2 P2) as (b3 & L3 & R3). rewrite R3. change (judge 2 [x01; x00] 2) with SendReq.
    destruct (resume_request c 2 b3 (evs_of c3 ++ evs) SendReq (or_intror (conj eq_refl eq_refl)) V L3) as (b4 & L4 & R4). rewrite R4.
    apply Forall_cons_iff in F as (_ & F). apply Forall_cons_iff in F as (_ & F). apply Forall_cons_iff in F as (F & _).
    destruct (end_reply c b4 r c3 evs L4 W) as (rest & R5 & RE); [unfold lenN, BUFF; lia|exact P3|]. rewrite R5. do 3 eexists. split; [reflexivity|]. destruct (rep_of r) as [[]|]; split; try reflexivity; try discriminate. intros _. apply RE. reflexivity.
  - inversion IP as [|? ? c1 d1 P1 IP1]; subst. inversion IP1 as [|? ? c2 d2 P2 IP2]; subst. inversion IP2; subst. rewrite app_nil_r. rewrite evs_of_app, <- app_assoc.
    destruct (first_answer c 1 b0 x05 x02 c1 (evs_of c2 ++ evs) (or_introl eq_refl) L0 P1) as (b1 & L1 & R1). rewrite R1. change (judge 1 [x05; x02] 2) with SendAuth.
    destruct (resume_auth c b1 (evs_of c2 ++ evs) V L1) as (b2 & L2 & R2). rewrite R2.
    destruct (first_answer c 2 b2 x01 st c2 evs (or_intror eq_refl) L2 P2) as (b3 & L3 & R3). rewrite R3. change 2 with (lenN [x01; st]) at 2. rewrite judge2 by auto. cbv iota.
    destruct (Byte.eqb st x00) eqn:B; [apply byte_eqb_eq in B; contradiction|]. do 3 eexists. split; [reflexivity|]. split; [reflexivity|discriminate].
  - inversion IP as [|? ? c1 d1 P1 IP1]; subst. inversion IP1; subst. rewrite app_nil_r.
    destruct (first_answer c 1 b0 x05 m c1 evs (or_introl eq_refl) L0 P1) as (b1 & L1 & R1). rewrite R1. change 2 with (lenN [x05; m]). rewrite judge2 by auto. cbv iota. destruct W as (W1 & W2).
    destruct (Byte.eqb m x00) eqn:B; [apply byte_eqb_eq in B; contradiction|]. destruct (Byte.eqb m x02) eqn:B2; [apply byte_eqb_eq in B2; contradiction|]. do 3 eexists. split; [reflexivity|]. split; [reflexivity|discriminate].
Qed.
Print Assumptions C51_fragmentation_partial.
(** SOCKS4 reads exactly its answer. *)
Theorem C51_socks4 vn cd p1 p2 a b c d extra : socks4_answer ([vn; cd; p1; p2; a; b; c; d] ++ extra) = Some (Byte.eqb cd x5a, extra) /\
  forall l, (length l < 8)%nat -> socks4_answer l = None.
Proof.
  unfold socks4_answer. split.
  - destruct (N.ltb_spec (lenN ([vn; cd; p1; p2; a; b; c; d] ++ extra)) 8) as [H|H]; [rewrite lenN_app in H; change (lenN [vn; cd; p1; p2; a; b; c; d]) with 8 in H; lia|]. rewrite dropN_app_ge by discriminate. reflexivity.
  - intros l H. destruct (N.ltb_spec (lenN l) 8); [reflexivity|unfold lenN in *; lia].
Qed.
Print Assumptions C51_socks4.
Example C51_example : exists q s, let t := TAuth [x05; x00; x00; x03; x01; x61; x00; x50] in hs_start (calls ex_parse [CAuth [x75] [x70]; CTarget 80 [x31]]) (repeat x00 64) = Ok (q, s) /\ wf_talk t /\
  in_pieces (answers t) [[x05]; [x02]; [x01; x00]; [x05; x00; x00]; [x03; x01; x61; x00]; [x50]] /\ granted t = true.
Proof.
  do 2 eexists. cbn zeta. split; [vm_compute; reflexivity|]. split; [vm_compute; discriminate|]. split; [|reflexivity]. cbn [answers].
  change [[x05]; [x02]; [x01; x00]; [x05; x00; x00]; [x03; x01; x61; x00]; [x50]] with ([[x05]; [x02]] ++ [[x01; x00]] ++ [[x05; x00; x00]; [x03; x01; x61; x00]; [x50]] ++ []).
  repeat (apply ip_cons; [split; [reflexivity|repeat (constructor; [discriminate|]); constructor]|]). constructor.
Qed.

(** ** C72: a connection is reported only after the proxy granted it *)
Lemma run_inv c step : forall evs got b qs rest, lenN b = BUFF -> takeN (lenN got) b = got -> lenN got < BUFF ->
  hs_run c (mk_hs step b (lenN got)) evs = Some (Ok (qs, Connected, rest)) ->
  exists cs evs' wok b', map fst evs = map Some cs ++ map fst evs' /\ lenN b' = BUFF /\
    resume c step b' (judge step (got ++ concat cs) (lenN (got ++ concat cs))) wok evs' = Some (Ok (qs, Connected, rest)).
Proof.
  induction evs as [|[[l|] wok] evs IH]; intros got b qs rest L T LT H; cbn [hs_run] in H; [discriminate| |discriminate].
  destruct (list_eq_dec Byte.byte_eq_dec l []) as [->|NE]; [discriminate|].
  destruct (N.leb_spec (lenN got + lenN l) BUFF) as [FIT|FIT].
  - destruct (recv_eq c step b got l wok L T NE FIT) as (b' & L' & T' & R). rewrite R in H. destruct (judge step (got ++ l) (lenN (got ++ l))) eqn:J.
    + destruct (N.leb_spec BUFF (lenN (got ++ l))) as [K|K]; [discriminate|]. destruct (hs_run c (mk_hs step b' (lenN (got ++ l))) evs) as [[[[q r] rs]|e]|] eqn:HR; try discriminate. cbn [app] in H. inversion H; subst.
      destruct (IH (got ++ l) b' qs rest L' T' K HR) as (cs & evs' & w & b2 & M & L2 & R2). exists (l :: cs), evs', w, b2. split; [cbn [map app fst]; rewrite M; reflexivity|]. split; [exact L2|]. cbn [concat]. rewrite app_assoc. exact R2.
    + exists [l], evs, wok, b'. cbn [concat]. rewrite app_nil_r, J. split; [reflexivity|]. split; [exact L'|exact H].
    + exists [l], evs, wok, b'. cbn [concat]. rewrite app_nil_r, J. split; [reflexivity|]. split; [exact L'|exact H].
    + exists [l], evs, wok, b'. cbn [concat]. rewrite app_nil_r, J. split; [reflexivity|]. split; [exact L'|exact H].
    + exists [l], evs, wok, b'. cbn [concat]. rewrite app_nil_r, J. split; [reflexivity|]. split; [exact L'|exact H].
    + exists [l], evs, wok, b'. cbn [concat]. rewrite app_nil_r, J. split; [reflexivity|]. split; [exact L'|exact H].
  - unfold hs_recv in H. cbn [hres] in H. destruct (N.ltb_spec (BUFF - lenN got) (lenN l)) as [K|K]; [rewrite orb_true_r in H; discriminate|lia].
Qed.
Lemma closed_resume c step b v evs qs rest : valid c -> lenN b = BUFF -> resume c step b v false evs <> Some (Ok (qs, Connected, rest)) \/ v = Granted.
Proof.
  intros V L. unfold resume, finish. destruct v; auto; left.
  - discriminate.
  - destruct (send_auth_ok c b V L) as (r & S & _). rewrite (next_ok _ _ _ _ S). discriminate.
  - destruct (send_request_ok c b V L) as (r & S & _). rewrite (next_ok _ _ _ _ S). discriminate.
  - destruct (send_request_ok c b V L) as (r & S & _). rewrite (next_ok _ _ _ _ S). discriminate.
  - discriminate.
Qed.
Lemma last_phase c b evs qs rest : lenN b = BUFF -> hs_run c (mk_hs 3 b 0) evs = Some (Ok (qs, Connected, rest)) ->
  exists cs v x, map fst evs = map Some cs ++ map fst rest /\ concat cs = v :: x00 :: x /\ (4 <= length x)%nat /\ qs = [].
Proof.
  intros L H. change 0 with (lenN (@nil byte)) in H. destruct (run_inv c 3 evs [] b qs rest L eq_refl ltac:(reflexivity) H) as (cs & evs' & wok & b' & M & L' & R). cbn [app] in R. clear H.
  unfold judge in R. destruct (N.ltb_spec (lenN (concat cs)) 6) as [K|K]; [discriminate|]. destruct (Byte.eqb (at_ (concat cs) 1) x00) eqn:B; [|discriminate]. apply byte_eqb_eq in B.
  match type of R with resume _ _ _ (if ?x then _ else if ?y then _ else _) _ _ = _ => destruct x; [discriminate|]; destruct y; [discriminate|] end. unfold resume, finish in R. inversion R; subst.
  destruct (concat cs) as [|v [|z x]] eqn:CC; [vm_compute in K; congruence|vm_compute in K; congruence|]. unfold at_ in B. cbn [nth] in B. subst z. exists cs, v, x. split; [exact M|]. split; [exact CC|]. split; [unfold lenN in K; cbn [length] in K; lia|reflexivity].
Qed.
Lemma not_granted step g : step = 1 \/ step = 2 -> judge step g (lenN g) <> Granted.
Proof. intros [-> | ->]; unfold judge; destruct (lenN g <? 2); try discriminate; destruct (2 <? lenN g); try discriminate; destruct (Byte.eqb (at_ g 1) x00); try discriminate; destruct (Byte.eqb (at_ g 1) x02); discriminate. Qed.
(** Whatever arrives and however it is cut: if a connection is reported, the proxy has selected method 0, or method 2 and
    accepted the credentials, and has answered the request, which named the target, with reply code 0. *)
Theorem C72_only_if_granted parse l port ip l2 b q s evs qs rest : parser_ok parse -> length b = 64%nat ->
  last_target parse l port ip l2 -> parse ip = None \/ no_name_before parse l ->
  let c := calls parse (l ++ CTarget port ip :: l2) in
  hs_start c b = Ok (q, s) -> hs_run c s evs = Some (Ok (qs, Connected, rest)) ->
  exists cs a1 a2 v x req, map fst evs = map Some cs ++ map fst rest /\ concat cs = a1 ++ a2 ++ v :: x00 :: x /\ (4 <= length x)%nat /\
    dec_request req = Some (named parse port ip) /\
    ((exists w, a1 = [w; x00] /\ a2 = [] /\ qs = [req]) \/ (exists w w2 au, a1 = [w; x02] /\ a2 = [w2; x00] /\ qs = [au; req])).
Proof.
  intros P L T NB c HS H. pose proof (valid_calls parse (l ++ CTarget port ip :: l2) P) as V. fold c in V. destruct (C52_last_target_partial parse l port ip l2 b P T L NB) as (req & WR & DR). fold c in WR.
  rewrite (written_request c b V L) in WR. assert (X : req = req_bytes c) by congruence. subst req. clear WR. clearbody c. destruct (start_state _ _ _ _ L HS) as (b0 & -> & L0). clear HS L.
  change 0 with (lenN (@nil byte)) in H. destruct (run_inv c 1 evs [] b0 qs rest L0 eq_refl ltac:(reflexivity) H) as (cs & evs1 & wok & b1 & M & L1 & R). cbn [app] in R. clear H.
  destruct wok; [|destruct (closed_resume c 1 b1 (judge 1 (concat cs) (lenN (concat cs))) evs1 qs rest V L1) as [X|X]; [contradiction|]; exact (False_ind _ (not_granted 1 _ (or_introl eq_refl) X))].
  unfold judge in R. destruct (N.ltb_spec (lenN (concat cs)) 2) as [K|K]; [discriminate|]. destruct (N.ltb_spec 2 (lenN (concat cs))) as [K2|K2]; [discriminate|].
  destruct (concat cs) as [|w [|m [|? ?]]] eqn:CC; try (unfold lenN in K, K2; cbn [length] in K, K2; lia). unfold at_ in R. cbn [nth] in R.
  destruct (Byte.eqb m x00) eqn:B0; [apply byte_eqb_eq in B0; subst m|destruct (Byte.eqb m x02) eqn:B2; [apply byte_eqb_eq in B2; subst m|discriminate]].
  - destruct (resume_request c 1 b1 evs1 SkipAuth (or_introl (conj eq_refl eq_refl)) V L1) as (b2 & L2 & R2). rewrite R2 in R. destruct (hs_run c (mk_hs 3 b2 0) evs1) as [[[[q' r] rs]|e]|] eqn:HR; try discriminate. inversion R; subst.
    destruct (last_phase _ _ _ _ _ L2 HR) as (cs3 & v & x & M3 & C3 & LX & ->). exists (cs ++ cs3), [w; x00], [], v, x, (req_bytes c). split; [rewrite M, M3, map_app, app_assoc; reflexivity|]. split; [rewrite concat_app, CC, C3; reflexivity|].
    split; [exact LX|]. split; [exact DR|]. left. exists w. auto.
  - destruct (resume_auth c b1 evs1 V L1) as (b2 & L2 & R2). rewrite R2 in R. destruct (hs_run c (mk_hs 2 b2 0) evs1) as [[[[q' r] rs]|e]|] eqn:HR; try discriminate. inversion R; subst. clear R R2.
    change 0 with (lenN (@nil byte)) in HR. destruct (run_inv c 2 evs1 [] b2 q' rest L2 eq_refl ltac:(reflexivity) HR) as (cs2 & evs2 & wok & b3 & M2 & L3 & R). cbn [app] in R. clear HR.
    destruct wok; [|destruct (closed_resume c 2 b3 (judge 2 (concat cs2) (lenN (concat cs2))) evs2 q' rest V L3) as [X|X]; [contradiction|]; exact (False_ind _ (not_granted 2 _ (or_intror eq_refl) X))].
    unfold judge in R. destruct (N.ltb_spec (lenN (concat cs2)) 2) as [Ka|Ka]; [discriminate|]. destruct (N.ltb_spec 2 (lenN (concat cs2))) as [Kb|Kb]; [discriminate|].
    destruct (concat cs2) as [|w2 [|m [|? ?]]] eqn:CC2; try (unfold lenN in Ka, Kb; cbn [length] in Ka, Kb; lia). unfold at_ in R. cbn [nth] in R. destruct (Byte.eqb m x00) eqn:B; [apply byte_eqb_eq in B; subst m|discriminate].
    destruct (resume_request c 2 b3 evs2 SendReq (or_intror (conj eq_refl eq_refl)) V L3) as (b4 & L4 & R4). rewrite R4 in R. destruct (hs_run c (mk_hs 3 b4 0) evs2) as [[[[q2 r] rs]|e]|] eqn:HR; try discriminate. inversion R; subst.
    destruct (last_phase _ _ _ _ _ L4 HR) as (cs3 & v & x & M3 & C3 & LX & ->). exists (cs ++ cs2 ++ cs3), [w; x02], [w2; x00], v, x, (req_bytes c).
    split; [rewrite M, M2, M3, !map_app, <- !app_assoc; reflexivity|]. split; [rewrite !concat_app, CC, CC2, C3; reflexivity|]. split; [exact LX|]. split; [exact DR|]. right. exists w, w2, (auth_bytes c). auto.
Qed.
Print Assumptions C72_only_if_granted.
Example C72_example : exists q s qs, let c := calls ex_parse ([CAuth [x75] [x70]] ++ [CTarget 80 [x31]]) in last_target ex_parse [CAuth [x75] [x70]] 80 [x31] [] /\
  hs_start c (repeat x00 64) = Ok (q, s) /\ hs_run c s (evs_of [[x05]; [x02]; [x01; x00]; [x05; x00; x00; x01]; [x01; x02; x03; x04; x00; x50]; [x48]]) = Some (Ok (qs, Connected, [(Some [x48], true)])).
Proof. do 3 eexists. cbn zeta. split; [split; [reflexivity|]; split; [reflexivity|constructor]|]. split; [vm_compute; reflexivity|vm_compute; reflexivity]. Qed.

(** ** C73: only answers that follow the RFCs are taken *)
(** a connection is reported only after a method that was offered and a well-formed reply *)
Definition C73_statement : Prop := forall parse l b q s evs qs rest, parser_ok parse -> length b = 64%nat -> hs_start (calls parse l) b = Ok (q, s) ->
  hs_run (calls parse l) s evs = Some (Ok (qs, Connected, rest)) ->
  exists t cs, map fst evs = map Some cs ++ map fst rest /\ wf_talk t /\ granted t = true /\ concat cs = concat (answers t) /\
    match t with TNoAuth _ => True | _ => exists ms, dec_methods q = Some ms /\ In x02 ms end.
(** False: a proxy may select authentication that was not offered (empty credentials are then sent, which no RFC 1929 server accepts), ... *)
Theorem C73_refuted : exists q s qs, hs_start s5_init (repeat x00 64) = Ok (q, s) /\ dec_methods q = Some [x00] /\
  hs_run s5_init s (evs_of [[x05; x02]; [x01; x00]; [x05; x00; x00; x01; x01; x02; x03; x04; x00; x50]]) = Some (Ok (qs, Connected, [])) /\
  nth 0 qs [] = [x01; x00; x00] /\ dec_auth (nth 0 qs []) = None.
Proof. do 3 eexists. split; [vm_compute; reflexivity|]. split; [reflexivity|]. split; [vm_compute; reflexivity|]. split; reflexivity. Qed.
Print Assumptions C73_refuted.
(** ... and versions and the address type of the reply are not checked: "AAAA.A" style rubbish is a success. *)
Theorem C73_rubbish_refuted : exists q s qs, hs_start s5_init (repeat x00 64) = Ok (q, s) /\
  hs_run s5_init s (evs_of [[x41; x00]; [x41; x00; x41; x41; x41; x41]]) = Some (Ok (qs, Connected, [])) /\ rep_of [x41; x00; x41; x41; x41; x41] = None.
Proof. do 3 eexists. split; [vm_compute; reflexivity|]. split; vm_compute; reflexivity. Qed.
Print Assumptions C73_rubbish_refuted.
Theorem C73_statement_refuted : ~ C73_statement.
Proof.
  intros H. destruct C73_rubbish_refuted as (q & s & qs & S & R & _). specialize (H (fun _ => None) [] (repeat x00 64) q s _ qs [] noparse_ok eq_refl S R). destruct H as (t & cs & M & W & G & C & _).
  rewrite app_nil_r in M. assert (CC : cs = [[x41; x00]; [x41; x00; x41; x41; x41; x41]]).
  { destruct cs as [|c1 [|c2 [|? ?]]]; cbn in M; inversion M; reflexivity. }
  subst cs. destruct t; cbn in C; discriminate.
Qed.
Print Assumptions C73_statement_refuted.
(** What is sure: if credentials were set, the methods offered include authentication. *)
Theorem C73_offered_partial c b q s usr pwd c0 : length b = 64%nat -> set_auth c0 usr pwd = (true, c) -> hs_start c b = Ok (q, s) -> exists ms, dec_methods q = Some ms /\ In x02 ms.
Proof.
  intros L SA H. destruct (C50_methods c b L) as (q' & s' & H' & D). rewrite H in H'. inversion H'; subst q' s'. exists [x00; x02]. split; [|right; left; reflexivity]. rewrite D.
  unfold set_auth in SA. destruct (N.eqb_spec (lenN usr) 0) as [Z|Z]; [discriminate|]. destruct (_ || _); [discriminate|]. inversion SA; subst. cbn [username]. destruct (N.eqb_spec (lenN usr) 0); [contradiction|reflexivity].
Qed.
Print Assumptions C73_offered_partial.
Example C73_example : exists c q s, set_auth s5_init [x75] [x70] = (true, c) /\ hs_start c (repeat x00 64) = Ok (q, s).
Proof. do 3 eexists. split; [reflexivity|vm_compute; reflexivity]. Qed.
