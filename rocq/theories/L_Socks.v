(** Lemmas about the SOCKS handshakes. *)
From Coq Require Import List NArith ZArith Bool Arith Lia ZifyBool ZifyNat ZifyN.
From Verif Require Import M_Bytes M_Socks S_Socks L_Bytes.
Import ListNotations.
Open Scope N_scope.

Lemma blit_pre p r off src : off = lenN p -> lenN src <= lenN r -> blit (p ++ r) off src = Ok ((p ++ src) ++ dropN (lenN src) r).
Proof.
  intros -> L. rewrite blit_ok by (rewrite lenN_app; lia). rewrite app_take_eq by reflexivity.
  rewrite dropN_app_ge by lia. replace (lenN p + lenN src - lenN p) with (lenN src) by lia. rewrite app_assoc. reflexivity.
Qed.
Lemma fetch_pre p r n : n = lenN p -> fetch (p ++ r) 0 n = Ok p.
Proof. intros ->. rewrite fetch_ok by (rewrite lenN_app; lia). rewrite dropN_0, app_take_eq by reflexivity. reflexivity. Qed.

(** ** settings that the setters can produce *)
Definition addr_ok (a : addr) : Prop := match a with V4 b => length b = 4%nat | V6 b => length b = 16%nat end.
Definition parser_ok (parse : list byte -> option addr) : Prop := forall ip a, parse ip = Some a -> addr_ok a.
Definition valid (c : s5) : Prop := addr_ok (target_addr c) /\ lenN (target_domain c) <= 57 /\ lenN (username c) + lenN (password c) <= 60.
Inductive call : Type := CTarget (port : N) (ip : list byte) | CAuth (usr pwd : list byte).
Definition apply (parse : list byte -> option addr) (c : s5) (x : call) : s5 :=
  match x with CTarget p ip => snd (set_target parse c p ip) | CAuth u w => snd (set_auth c u w) end.
Definition calls (parse : list byte -> option addr) (l : list call) : s5 := fold_left (apply parse) l s5_init.
Lemma valid_apply parse c x : parser_ok parse -> valid c -> valid (apply parse c x).
Proof.
  intros P (A & D & U). destruct x as [p ip|u w]; cbn [apply].
  - unfold set_target. destruct (_ || _); [repeat split; assumption|]. destruct (parse ip) eqn:E.
    + split; [exact (P _ _ E)|]. split; assumption.
    + destruct (N.ltb_spec (BUFF - 7) (lenN ip)) as [L|L]; [repeat split; assumption|]. split; [exact A|]. split; [exact L|exact U].
  - unfold set_auth. destruct (N.ltb_spec 60 (lenN u + lenN w)); [rewrite !orb_true_r; repeat split; assumption|]. destruct (_ || _); [repeat split; assumption|]. split; [exact A|]. split; [exact D|assumption].
Qed.
Lemma valid_calls parse l : parser_ok parse -> valid (calls parse l).
Proof.
  intros P. unfold calls. assert (V : valid s5_init) by (split; [reflexivity|]; split; [discriminate|vm_compute; discriminate]).
  revert V. generalize s5_init. induction l as [|x l IH]; intros c V; cbn [fold_left]; [exact V|]. apply IH. apply valid_apply; assumption.
Qed.

(** ** requests *)
Definition offered (c : s5) : list byte := if (lenN (username c) =? 0) && (lenN (password c) =? 0) then [x00] else [x00; x02].
Lemma send_method_ok c b : lenN b = BUFF -> exists r, send_method c b = Ok ((x05 :: byte_of_N (lenN (offered c)) :: offered c) ++ r, 2 + lenN (offered c)) /\ lenN ((x05 :: byte_of_N (lenN (offered c)) :: offered c) ++ r) = BUFF.
Proof.
  intros L. do 4 (destruct b as [|? b]; [discriminate|]). unfold send_method, offered. set (z := (_ =? 0) && _). clearbody z.
  assert (E : lenN b = 60) by (rewrite !lenN_cons in L; unfold BUFF in L; lia). clear L.
  change (b0 :: b1 :: b2 :: b3 :: b) with ([] ++ (b0 :: b1 :: b2 :: b3 :: b)).
  rewrite blit_pre by (reflexivity || (rewrite !lenN_cons, ?lenN_nil; lia)). cbn [bind app]. change (dropN (lenN [x05]) (b0 :: b1 :: b2 :: b3 :: b)) with (b1 :: b2 :: b3 :: b). destruct z.
  - change (x05 :: b1 :: b2 :: b3 :: b) with ([x05] ++ (b1 :: b2 :: b3 :: b)). rewrite blit_pre by (reflexivity || (rewrite !lenN_cons, ?lenN_nil; lia)). cbn [bind app].
    change (dropN (lenN [x01]) (b1 :: b2 :: b3 :: b)) with (b2 :: b3 :: b). change (x05 :: x01 :: b2 :: b3 :: b) with ([x05; x01] ++ (b2 :: b3 :: b)). rewrite blit_pre by (reflexivity || (rewrite !lenN_cons, ?lenN_nil; lia)). cbn [bind app].
    eexists (b3 :: b). split; [reflexivity|]. cbn [app]. rewrite !lenN_cons. unfold BUFF. lia.
  - change (x05 :: b1 :: b2 :: b3 :: b) with ([x05] ++ (b1 :: b2 :: b3 :: b)). rewrite blit_pre by (reflexivity || (rewrite !lenN_cons, ?lenN_nil; lia)). cbn [bind app].
    change (dropN (lenN [x02]) (b1 :: b2 :: b3 :: b)) with (b2 :: b3 :: b). change (x05 :: x02 :: b2 :: b3 :: b) with ([x05; x02; b2] ++ (b3 :: b)). rewrite blit_pre by (reflexivity || (rewrite !lenN_cons, ?lenN_nil; lia)). cbn [bind app].
    change (dropN (lenN [x02]) (b3 :: b)) with b. change (x05 :: x02 :: b2 :: x02 :: b) with ([x05; x02] ++ (b2 :: x02 :: b)). rewrite blit_pre by (reflexivity || (rewrite !lenN_cons, ?lenN_nil; lia)). cbn [bind app].
    eexists b. split; [reflexivity|]. cbn [app]. rewrite !lenN_cons. unfold BUFF. lia.
Qed.
Definition auth_bytes (c : s5) : list byte := ((([x01] ++ [byte_of_N (lenN (username c))]) ++ username c) ++ [byte_of_N (lenN (password c))]) ++ password c.
Lemma be2_len n : lenN (be_encode 2 n) = 2.
Proof. unfold lenN. rewrite be_encode_len. reflexivity. Qed.
Local Ltac lens := first [reflexivity | repeat (rewrite be2_len || rewrite lenN_app || rewrite lenN_dropN || rewrite lenN_cons); change (lenN (@nil byte)) with 0; unfold BUFF in *; try lia].

Lemma ok_pair (p1 p2 r : list byte) (n1 n2 : N) : p1 = p2 -> n1 = n2 -> Ok (p1 ++ r, n1) = Ok (p2 ++ r, n2).
Proof. intros -> ->. reflexivity. Qed.
Lemma send_auth_ok c b : valid c -> lenN b = BUFF -> exists r, send_auth c b = Ok (auth_bytes c ++ r, lenN (auth_bytes c)) /\ lenN (auth_bytes c ++ r) = BUFF.
Proof.
  intros (_ & _ & U) L. unfold send_auth. rewrite <- (app_nil_l b). rewrite blit_pre by lens. cbn [bind]. rewrite app_nil_l.
  rewrite blit_pre by lens. cbn [bind]. rewrite blit_pre by lens. cbn [bind]. rewrite blit_pre by lens. cbn [bind]. rewrite blit_pre by lens. cbn [bind].
  eexists. split; [apply ok_pair; [reflexivity|unfold auth_bytes; lens]|]. unfold auth_bytes. lens.
Qed.
(** the target that a request names *)
Definition aim (c : s5) : dest * N :=
  if negb (lenN (target_domain c) =? 0) then (DName (target_domain c), target_port c)
  else match target_addr c with V4 a => (DV4 a, target_addr_port c) | V6 a => (DV6 a, target_addr_port c) end.
Definition enc_dest (d : dest) : list byte := match d with DV4 a => x01 :: a | DV6 a => x04 :: a | DName n => x03 :: byte_of_N (lenN n) :: n end.
Definition req_bytes (c : s5) : list byte := [x05; x01; x00] ++ enc_dest (fst (aim c)) ++ be_encode 2 (snd (aim c)).
Lemma schar_small n : n < 128 -> schar (byte_of_N n) = Z.of_N n.
Proof. intros H. unfold schar. rewrite to_N_byte_of_N, N.mod_small by lia. destruct (Z.ltb_spec (Z.of_N n) 128); lia. Qed.
Lemma send_request_ok c b : valid c -> lenN b = BUFF -> exists r, send_request c b = Ok (req_bytes c ++ r, lenN (req_bytes c)) /\ lenN (req_bytes c ++ r) = BUFF.
Proof.
  intros (A & D & _) L. unfold send_request. rewrite <- (app_nil_l b). rewrite blit_pre by lens. cbn [bind]. rewrite app_nil_l.
  rewrite blit_pre by lens. cbn [bind]. rewrite blit_pre by lens. cbn [bind]. unfold req_bytes, aim.
  destruct (N.eqb_spec (lenN (target_domain c)) 0) as [E|NE]; cbn [negb].
  - destruct (target_addr c) as [a|a]; cbn [addr_ok] in A.
    + assert (LA : lenN a = 4) by (unfold lenN; lia). rewrite blit_pre by lens. cbn [bind]. rewrite blit_pre by lens. cbn [bind]. rewrite blit_pre by lens. cbn [bind].
      eexists. cbn [fst snd enc_dest]. split; [apply ok_pair; [rewrite <- !app_assoc; reflexivity|lens]|]. lens.
    + assert (LA : lenN a = 16) by (unfold lenN; lia). rewrite blit_pre by lens. cbn [bind]. rewrite blit_pre by lens. cbn [bind]. rewrite blit_pre by lens. cbn [bind].
      eexists. cbn [fst snd enc_dest]. split; [apply ok_pair; [rewrite <- !app_assoc; reflexivity|lens]|]. lens.
  - replace (N.min (lenN (target_domain c)) (BUFF - 7)) with (lenN (target_domain c)) by (unfold BUFF; lia). rewrite schar_small by lia.
    destruct (Z.ltb_spec (Z.of_N (lenN (target_domain c))) 0); [lia|]. rewrite N2Z.id. rewrite blit_pre by lens. cbn [bind]. rewrite blit_pre by lens. cbn [bind].
    rewrite fetch_ok by lia. cbn [bind]. rewrite dropN_0, takeN_all by lia. rewrite blit_pre by lens. cbn [bind]. rewrite blit_pre by lens. cbn [bind].
    eexists. cbn [fst snd enc_dest]. split; [apply ok_pair; [rewrite <- !app_assoc; reflexivity|lens]|]. lens.
Qed.
Lemma send_ok r0 p r : r0 = Ok (p ++ r, lenN p) -> written r0 = Ok p.
Proof. intros ->. unfold written. cbn [bind]. apply fetch_pre. reflexivity. Qed.
Lemma next_ok r0 p r step : r0 = Ok (p ++ r, lenN p) -> next_request r0 step = Ok ([p], Open (mk_hs step (p ++ r) 0)).
Proof. intros ->. unfold next_request. cbn [bind]. rewrite fetch_pre by reflexivity. reflexivity. Qed.

(** ** answers *)
Lemma nth_firstn_lt {A} (d : A) n : forall i l, (i < n)%nat -> nth i (firstn n l) d = nth i l d.
Proof. induction n as [|n IH]; intros [|i] [|x l] H; cbn [firstn nth]; try reflexivity; try lia. apply IH. lia. Qed.
Lemma judge_take step b n g : takeN n b = g -> judge step b n = judge step g n.
Proof.
  intros <-. unfold judge, at_, takeN.
  destruct step as [|[[p|p|]|[p|p|]|]]; try reflexivity.
  - destruct (N.ltb_spec n 6); [reflexivity|]. rewrite !nth_firstn_lt by lia. reflexivity.
  - destruct (N.ltb_spec n 2); [reflexivity|]. destruct (N.ltb_spec 2 n); [reflexivity|]. rewrite !nth_firstn_lt by lia. reflexivity.
  - destruct (N.ltb_spec n 2); [reflexivity|]. destruct (N.ltb_spec 2 n); [reflexivity|]. rewrite !nth_firstn_lt by lia. reflexivity.
Qed.
(** what happens once an answer is judged *)
Definition finish (c : s5) (step : N) (b : list byte) (v : verdict) (wok : bool) : res (list (list byte) * result) :=
  let send r step := bind (next_request r step) (fun '(q, t) => Ok (q, if wok then t else Closed)) in
  match v with
  | SendAuth => send (send_auth c b) (step + 1)
  | SkipAuth => send (send_request c b) (step + 2)
  | SendReq => send (send_request c b) (step + 1)
  | Granted => Ok ([], Connected)
  | Refused => Ok ([], Closed)
  | Again => Ok ([], Closed)
  end.
Lemma recv_eq c step b got l wok : lenN b = BUFF -> takeN (lenN got) b = got -> l <> [] -> lenN got + lenN l <= BUFF ->
  exists b', lenN b' = BUFF /\ takeN (lenN (got ++ l)) b' = got ++ l /\
  hs_recv c (mk_hs step b (lenN got)) (Some l) wok = Some (
    match judge step (got ++ l) (lenN (got ++ l)) with
    | Again => if BUFF <=? lenN (got ++ l) then Ok ([], Closed) else Ok ([], Open (mk_hs step b' (lenN (got ++ l))))
    | v => finish c step b' v wok
    end).
Proof.
  intros L T NE F. unfold hs_recv. cbn [hres hbuf hstep]. assert (E : lenN l <> 0) by (intros E; apply lenN_0 in E; contradiction).
  destruct (N.eqb_spec (lenN l) 0); [contradiction|]. destruct (N.ltb_spec (BUFF - lenN got) (lenN l)) as [K|K]; [unfold BUFF in *; lia|]. cbn [orb].
  destruct (blit b (lenN got) l) as [b'|e] eqn:B; [|rewrite blit_ok in B by lia; discriminate].
  exists b'. assert (T' : takeN (lenN (got ++ l)) b' = got ++ l) by (rewrite lenN_app, (blit_take _ _ _ _ B), T; reflexivity).
  split; [rewrite (blit_len _ _ _ _ B); exact L|]. split; [exact T'|]. cbn [bind]. rewrite <- lenN_app. rewrite (judge_take _ _ _ _ T').
  destruct (judge step (got ++ l) (lenN (got ++ l))); reflexivity.
Qed.
(** the rest of the handshake once an answer is judged *)
Definition resume (c : s5) (step : N) (b : list byte) (v : verdict) (wok : bool) (evs : list event) : option (res (list (list byte) * result * list event)) :=
  match finish c step b v wok with
  | Bad e => Some (Bad e)
  | Ok (q, Open s') => match hs_run c s' evs with Some (Ok (q', r, rest)) => Some (Ok (q ++ q', r, rest)) | x => x end
  | Ok (q, r) => Some (Ok (q, r, evs))
  end.
Definition evs_of (cs : list (list byte)) : list event := map (fun l => (Some l, true)) cs.
Lemma pieces_nonempty l cs : pieces l cs -> l <> [] -> cs <> [].
Proof. intros (E & _) H X. subst cs. cbn in E. congruence. Qed.
(** an answer all of whose strict prefixes are too short *)
Lemma run_exact c step ans v : v <> Again -> judge step ans (lenN ans) = v -> lenN ans <= BUFF ->
  (forall p q, ans = p ++ q -> q <> [] -> judge step p (lenN p) = Again) ->
  forall cs got b evs, lenN b = BUFF -> takeN (lenN got) b = got -> got ++ concat cs = ans -> Forall (fun c => c <> []) cs -> cs <> [] ->
  exists b', lenN b' = BUFF /\ hs_run c (mk_hs step b (lenN got)) (evs_of cs ++ evs) = resume c step b' v true evs.
Proof.
  intros NV J LA PRE. induction cs as [|l cs IH]; intros got b evs L T E NE CN; [congruence|]. clear CN. inversion NE; subst.
  cbn [concat] in *. cbn [evs_of map app hs_run]. change (map (fun l0 : list byte => (Some l0, true)) cs) with (evs_of cs).
  assert (FIT : lenN got + lenN l <= BUFF) by (rewrite !lenN_app in LA; lia).
  destruct (recv_eq c step b got l true L T H1 FIT) as (b' & L' & T' & R). rewrite R.
  destruct (list_eq_dec Byte.byte_eq_dec (concat cs) []) as [EC|NC].
  - assert (cs = []) by (destruct cs as [|x cs]; [reflexivity|]; inversion H2; subst; cbn in EC; apply app_eq_nil in EC as [-> _]; congruence). subst cs. cbn [concat] in *. rewrite app_nil_r in *.
    exists b'. split; [exact L'|]. cbn [evs_of map app]. unfold resume. destruct (judge step (got ++ l) (lenN (got ++ l))) eqn:JE; try contradiction; reflexivity.
  - rewrite (PRE (got ++ l) (concat cs)) by (rewrite <- ?app_assoc; assumption || reflexivity).
    assert (LT : lenN (got ++ l) < BUFF). { assert (lenN (concat cs) <> 0) by (intros X; apply lenN_0 in X; contradiction). rewrite !lenN_app in *. lia. }
    destruct (N.leb_spec BUFF (lenN (got ++ l))) as [K|K]; [lia|].
    assert (CN : cs <> []) by (intros X; subst; cbn in NC; contradiction).
    destruct (IH (got ++ l) b' evs L' T' (eq_sym (app_assoc got l (concat cs))) H2 CN) as (b2 & L2 & R2). exists b2. split; [exact L2|]. rewrite R2.
    destruct (resume c step b2 _ true evs) as [[[[q r] rest]|e]|]; reflexivity.
Qed.
(** an answer refused at its end at the latest *)
Lemma run_refused c step ans : judge step ans (lenN ans) = Refused -> lenN ans <= BUFF ->
  (forall p q, ans = p ++ q -> judge step p (lenN p) = Again \/ judge step p (lenN p) = Refused) ->
  forall cs got b evs, lenN b = BUFF -> takeN (lenN got) b = got -> got ++ concat cs = ans -> Forall (fun c => c <> []) cs -> cs <> [] ->
  exists rest, hs_run c (mk_hs step b (lenN got)) (evs_of cs ++ evs) = Some (Ok ([], Closed, rest)).
Proof.
  intros J LA PRE. induction cs as [|l cs IH]; intros got b evs L T E NE CN; [congruence|]. clear CN. inversion NE; subst.
  cbn [concat] in *. cbn [evs_of map app hs_run]. change (map (fun l0 : list byte => (Some l0, true)) cs) with (evs_of cs).
  assert (FIT : lenN got + lenN l <= BUFF) by (rewrite !lenN_app in LA; lia).
  destruct (recv_eq c step b got l true L T H1 FIT) as (b' & L' & T' & R). rewrite R.
  destruct (PRE (got ++ l) (concat cs)) as [A|A]; [rewrite <- app_assoc; reflexivity| |rewrite A; cbn [finish]; eexists; reflexivity].
  assert (NC : concat cs <> []) by (intros X; rewrite X, app_nil_r in J; congruence).
  rewrite A. assert (LT : lenN (got ++ l) < BUFF). { assert (lenN (concat cs) <> 0) by (intros X; apply lenN_0 in X; contradiction). rewrite !lenN_app in *. lia. }
  destruct (N.leb_spec BUFF (lenN (got ++ l))) as [K|K]; [lia|].
  assert (CN : cs <> []) by (intros X; subst; cbn in NC; contradiction).
  destruct (IH (got ++ l) b' evs L' T' (eq_sym (app_assoc got l (concat cs))) H2 CN) as (rest & R2). rewrite R2. eexists. reflexivity.
Qed.
Lemma resume_auth c b evs : valid c -> lenN b = BUFF -> exists b', lenN b' = BUFF /\
  resume c 1 b SendAuth true evs = match hs_run c (mk_hs 2 b' 0) evs with Some (Ok (q', r, rest)) => Some (Ok (auth_bytes c :: q', r, rest)) | x => x end.
Proof. intros V L. destruct (send_auth_ok c b V L) as (r & S & LB). exists (auth_bytes c ++ r). split; [exact LB|]. unfold resume, finish. rewrite (next_ok _ _ _ _ S). reflexivity. Qed.
Lemma resume_request c step b evs v : (v = SkipAuth /\ step = 1 \/ v = SendReq /\ step = 2) -> valid c -> lenN b = BUFF -> exists b', lenN b' = BUFF /\
  resume c step b v true evs = match hs_run c (mk_hs 3 b' 0) evs with Some (Ok (q', r, rest)) => Some (Ok (req_bytes c :: q', r, rest)) | x => x end.
Proof.
  intros H V L. destruct (send_request_ok c b V L) as (r & S & LB). exists (req_bytes c ++ r). split; [exact LB|]. unfold resume, finish.
  destruct H as [(-> & ->)|(-> & ->)]; rewrite (next_ok _ _ _ _ S); reflexivity.
Qed.
