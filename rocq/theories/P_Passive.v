(** C102-C106: receiving on demand *)
From Coq Require Import List NArith Bool Arith Lia.
From Verif Require Import M_Passive S_Passive.
Import ListNotations.

Ltac pj := cbn [p_ready p_over p_started p_reading p_queued p_out p_strand p_wait set_queued set_wait set_strand set_read is_free c_sync c_tcp negb andb orb] in *.
Ltac cases D := unfold step, recv_msg in D;
  repeat match type of D with
  | context [match ?x with _ => _ end] => first [ is_var x; destruct x | let E := fresh "E" in destruct x eqn:E ]; try discriminate D; pj; cbn iota in D
  end; try (injection D as <- <-); pj.

Lemma run_app : forall c l1 l2 s, run c s (l1 ++ l2) = match run c s l1 with Some (s1, t1) => match run c s1 l2 with Some (s2, t2) => Some (s2, t1 ++ t2) | None => None end | None => None end.
Proof.
  induction l1 as [|a l1 IH]; intros l2 s; cbn.
  - destruct (run c s l2) as [[s2 t2]|]; reflexivity.
  - destruct (step c s a) as [[s1 e1]|]; [|reflexivity]. rewrite IH. destruct (run c s1 l1) as [[s2 t2]|]; [|reflexivity].
    destruct (run c s2 l2) as [[s3 t3]|]; [|reflexivity]. rewrite app_assoc. reflexivity.
Qed.

(** ** C102: at most one read at a time *)
Record I102 (s : pst) : Prop := mk_I102 { j_out : p_out s = if p_reading s then 1 else 0 }.
Lemma I102_step : forall c s a s' e, I102 s -> step c s a = Some (s', e) -> I102 s'.
Proof.
  intros c s a s' e [H] D. constructor. destruct a; cases D; rewrite ?E, ?E0, ?E1 in *; pj; try assumption; try lia;
  repeat match goal with K : p_reading _ = _ |- _ => rewrite K in * end; try destruct (p_reading s); lia.
Qed.
Lemma I102_run : forall c l s s' t, I102 s -> run c s l = Some (s', t) -> I102 s'.
Proof.
  induction l as [|a l IH]; intros s s' t J R; cbn in R; [injection R as <- <-; exact J|].
  destruct (step c s a) as [[s1 e1]|] eqn:D; [|discriminate]. destruct (run c s1 l) as [[s2 e2]|] eqn:R2; [|discriminate].
  injection R as <- <-. exact (IH _ _ _ (I102_step _ _ _ _ _ J D) R2).
Qed.
Theorem C102 : forall c l s t, run c p0 l = Some (s, t) -> p_out s <= 1 /\ (p_reading s = true <-> p_out s = 1).
Proof.
  intros c l s t R. destruct (I102_run c l p0 s t ltac:(constructor; reflexivity) R) as [H].
  destruct (p_reading s); split; try lia; split; intros; try congruence; lia.
Qed.
Print Assumptions C102.
(** the application asks three times before the first read starts *)
Example C102_ex : exists s t, run (mk_cfg false true) p0 [PReady; PRecv; PRecv; PRun; PRun; PRun; PRecv] = Some (s, t) /\ p_queued s = 0 /\ p_out s = 1 /\ p_reading s = true.
Proof. do 2 eexists. split; [vm_compute; reflexivity|]. repeat split. Qed.

(** ** C103: nothing is read unless somebody asked *)
Lemma count_app : forall f t1 t2, count f (t1 ++ t2) = count f t1 + count f t2.
Proof. induction t1 as [|e t1 IH]; intro t2; cbn; [reflexivity|]. rewrite IH. lia. Qed.
Lemma ask_step : forall c s a s' e, step c s a = Some (s', e) -> count is_read e + p_queued s' <= count is_ask e + p_queued s.
Proof. intros c s a s' e D. destruct a; cases D; cbn [count is_read is_ask]; repeat match goal with |- context [match ?x with _ => _ end] => destruct x; cbn [count is_read is_ask] end; lia. Qed.
Theorem C103 : forall c l s t, run c p0 l = Some (s, t) -> count is_read t + p_queued s <= count is_ask t.
Proof.
  intros c. assert (G : forall l s s' t, run c s l = Some (s', t) -> count is_read t + p_queued s' <= count is_ask t + p_queued s).
  { induction l as [|a l IH]; intros s s' t R; cbn in R; [injection R as <- <-; cbn; lia|].
    destruct (step c s a) as [[s1 e1]|] eqn:D; [|discriminate]. destruct (run c s1 l) as [[s2 e2]|] eqn:R2; [|discriminate].
    injection R as <- <-. rewrite !count_app. pose proof (IH _ _ _ R2). pose proof (ask_step _ _ _ _ _ D). lia. }
  intros l s t R. pose proof (G l p0 s t R) as H. cbn [p0 p_queued] in H. lia.
Qed.
Print Assumptions C103.
Example C103_ex : exists s t, run (mk_cfg true true) p0 [PReady; PCall false; PRun; PData [7%N; 8%N] false; PHandle; PRecv; PRun; PData [9%N] false; PHandle] = Some (s, t) /\
  t = [EAsk; ERead; EGot [7; 8]%N; EReturn (Success [7; 8]%N); EAsk; ERead; EGot [9%N]; EAsync [9%N]].
Proof. do 2 eexists. split; vm_compute; reflexivity. Qed.

(** over TCP, nothing is read once the link is down or closed *)
Definition J103 (s : pst) : Prop := p_over s = true -> p_ready s = false.
Lemma J103_step : forall c s a s' e, c_tcp c = true -> J103 s -> step c s a = Some (s', e) -> J103 s' /\ (p_over s = true -> p_over s' = true /\ count is_read e = 0).
Proof.
  intros c s a s' e T J D. unfold J103 in *. destruct a; cbn [step] in D; unfold recv_msg in D; rewrite ?T in D;
  repeat match type of D with
  | context [if ?x then _ else _] => destruct x eqn:?
  | context [match ?x with _ => _ end] => destruct x eqn:?
  end; try discriminate D; injection D as <- <-; cbn in *; (split; [intro X; try discriminate X; auto|]); intro O; rewrite ?O in *; cbn in *; try (rewrite (J eq_refl) in *); cbn in *; try discriminate; auto.
Qed.
Theorem C103_over : forall c l s t l' s' t', c_tcp c = true -> run c p0 l = Some (s, t) -> p_over s = true -> run c s l' = Some (s', t') -> count is_read t' = 0.
Proof.
  intros c l s t l' s' t' T R O R'.
  assert (G : forall l s s' t, J103 s -> run c s l = Some (s', t) -> J103 s' /\ (p_over s = true -> count is_read t = 0)).
  { clear l s t l' s' t' R O R'. induction l as [|a l IH]; intros s s' t J R; cbn [run] in R; [injection R as <- <-; split; [exact J|reflexivity]|].
    destruct (step c s a) as [[s1 e1]|] eqn:D; [|discriminate]. destruct (run c s1 l) as [[s2 e2]|] eqn:R2; [|discriminate]. injection R as <- <-.
    destruct (J103_step _ _ _ _ _ T J D) as [J1 K]. destruct (IH _ _ _ J1 R2) as [J2 K2]. split; [exact J2|]. intro O. destruct (K O) as [O1 E1]. rewrite count_app, E1, (K2 O1). reflexivity. }
  exact (proj2 (G l' s s' t' (proj1 (G l p0 s t ltac:(intro X; reflexivity) R)) R') O).
Qed.
Print Assumptions C103_over.
(** a request made before closing, and one after, start no read *)
Example C103_over_ex : exists s t s' t', run (mk_cfg true true) p0 [PReady; PCall false; PClose] = Some (s, t) /\ p_over s = true /\ p_queued s = 1 /\ run (mk_cfg true true) s [PRecv; PRun] = Some (s', t') /\ t' = [EAsk].
Proof. do 4 eexists. split; [vm_compute; reflexivity|]. split; [reflexivity|]. split; [reflexivity|]. split; vm_compute; reflexivity. Qed.

(** ** C104: what is read is handed over exactly once, in order *)
Definition inhand (s : pst) : list N := match p_strand s with SHave ms _ => ms | _ => [] end.
Lemma given_step : forall c s a s' e, step c s a = Some (s', e) -> inhand s ++ taken e = given e ++ inhand s'.
Proof.
  intros c s a s' e D. unfold inhand. destruct a; cases D; unfold taken, given; cbn [map concat takes gives app];
  repeat match goal with K : p_strand _ = _ |- _ => rewrite K; pj end; rewrite ?app_nil_r; try reflexivity;
  repeat match goal with |- context [match ?x with _ => _ end] => destruct x eqn:?; pj; cbn [map concat takes gives app] end; rewrite ?app_nil_r; try reflexivity; try congruence.
Qed.
Theorem C104 : forall c l s t, run c p0 l = Some (s, t) -> taken t = given t ++ inhand s.
Proof.
  intros c. assert (G : forall l s s' t, run c s l = Some (s', t) -> inhand s ++ taken t = given t ++ inhand s').
  { induction l as [|a l IH]; intros s s' t R; cbn in R; [injection R as <- <-; cbn; rewrite ?app_nil_r; reflexivity|].
    destruct (step c s a) as [[s1 e1]|] eqn:D; [|discriminate]. destruct (run c s1 l) as [[s2 e2]|] eqn:R2; [|discriminate].
    injection R as <- <-. unfold taken, given in *. rewrite !map_app, !concat_app, app_assoc.
    pose proof (given_step _ _ _ _ _ D) as H. unfold taken, given in H. rewrite H, <- !app_assoc. f_equal. exact (IH _ _ _ R2). }
  intros l s t R. exact (G l p0 s t R).
Qed.
Print Assumptions C104.
(** a synchronous call, a call that timed out, and a read whose messages are not yet handled *)
Example C104_ex : exists s t, run (mk_cfg true true) p0 [PReady; PCall false; PRun; PData [1%N; 2%N] false; PHandle; PCall true; PRun; PTime; PData [3%N] false; PHandle; PRecv; PRun; PData [4%N] false] = Some (s, t) /\
  given t = [1; 2; 3]%N /\ inhand s = [4%N] /\ taken t = [1; 2; 3; 4]%N.
Proof. do 2 eexists. split; [vm_compute; reflexivity|]. repeat split. Qed.

(** ** C105: a call of sync_recv_msg is answered when the peer sends *)
(** whatever the peer sends next, the library can bring it to an end *)
Definition answered (c : cfg) (s : pst) : Prop := forall ms, exists k s' t', Forall (fun a => library a = true) k /\ (forall ms' err, In (PData ms' err) k -> ms' = ms /\ err = false) /\
  ~ In PErr k /\ run c s k = Some (s', t') /\ existsb answer t' = true.
Definition C105_statement : Prop := forall c l s t, run c p0 l = Some (s, t) -> p_wait s <> None -> p_ready s = true -> answered c s.

(** the call was made while the link was being established *)
Theorem C105_refuted : exists s t, run (mk_cfg true true) p0 [PCall false; PReady] = Some (s, t) /\ p_wait s = Some false /\ p_ready s = true /\
  (forall k s' t', Forall (fun a => library a = true) k -> run (mk_cfg true true) s k = Some (s', t') -> t' = [] /\ p_wait s' = Some false) /\
  step (mk_cfg true true) s (PCall true) = Some (s, [EReturn Duplicate]).
Proof.
  do 2 eexists. split; [vm_compute; reflexivity|]. split; [reflexivity|]. split; [reflexivity|]. split; [|reflexivity].
  intros [|a k] s' t' F R; [injection R as <- <-; split; reflexivity|].
  inversion F as [|? ? Fa _]; subst. destruct a; discriminate.
Qed.
Print Assumptions C105_refuted.
Theorem C105_statement_refuted : ~ C105_statement.
Proof.
  intro C. destruct C105_refuted as (s & t & R & W & Y & H & _).
  destruct (C _ _ _ _ R ltac:(congruence) Y []) as (k & s' & t' & F & _ & _ & R' & A).
  destruct (H k s' t' F R') as [-> _]. discriminate.
Qed.
Print Assumptions C105_statement_refuted.

Record I105 (s : pst) : Prop := mk_I105 {
  k_out : p_out s = if p_reading s then 1 else 0;
  k_wait : p_wait s <> None -> p_ready s = true -> p_reading s = true \/ 0 < p_queued s \/ p_strand s <> SFree }.
Lemma I105_step : forall c s a s' e, I105 s -> match a with PCall _ => p_ready s = true | _ => True end -> step c s a = Some (s', e) -> (p_wait s <> None -> p_ready s = true \/ p_over s = true) -> I105 s' /\ (p_wait s' <> None -> p_ready s' = true \/ p_over s' = true).
Proof.
  intros c s a s' e [H W] P D V. split; [constructor|].
  - exact (j_out _ (I102_step c s a s' e (mk_I102 s H) D)).
  - intros W' Y. destruct a; cases D; rewrite ?P in *; pj; try congruence; try (right; left; lia); try tauto;
    repeat match goal with K : p_queued _ = _ |- _ => rewrite K in * end;
    repeat match goal with K : p_reading _ = _ |- _ => rewrite K in * end;
    repeat match goal with K : p_strand _ = _ |- _ => rewrite K in * end; pj; try (left; reflexivity); try (right; right; discriminate).
    all: try (destruct (W W' Y) as [K|[K|K]]; auto; try congruence; try lia).
    all: try (right; left; lia).
    all: try (destruct (p_strand s); congruence).
    all: try (destruct (p_strand s); try discriminate; destruct err; pj; congruence).
    all: repeat match goal with K : (_ || _)%bool = false |- _ => apply orb_false_elim in K; destruct K | K : (_ && _)%bool = true |- _ => apply andb_true_iff in K; destruct K | K : negb _ = true |- _ => apply negb_true_iff in K end.
    all: try (destruct (V W') as [K|K]; congruence).
    all: try congruence.
    all: try (apply W; [discriminate | reflexivity]).
    all: try (destruct (p_reading s); [left; reflexivity | discriminate]).
  - intros W'. destruct a; cases D; pj; try (right; reflexivity); try (left; reflexivity); try congruence; auto.
Qed.

Lemma I105_run : forall c l s s' t, I105 s -> (p_wait s <> None -> p_ready s = true \/ p_over s = true) -> punctual c s l -> run c s l = Some (s', t) -> I105 s'.
Proof.
  induction l as [|a l IH]; intros s s' t J V P R; cbn in R; [injection R as <- <-; exact J|].
  cbn in P. destruct P as [Pa P]. destruct (step c s a) as [[s1 e1]|] eqn:D; [|discriminate]. destruct (run c s1 l) as [[s2 e2]|] eqn:R2; [|discriminate].
  injection R as <- <-. destruct (I105_step c s a s1 e1 J Pa D V) as [J1 V1]. exact (IH _ _ _ J1 V1 P R2).
Qed.

(** calls are only made while the link is ready *)
Theorem C105_partial : forall c l s t, run c p0 l = Some (s, t) -> punctual c p0 l -> p_wait s <> None -> p_ready s = true -> answered c s.
Proof.
  intros c l s t R P W Y ms.
  destruct (I105_run c l p0 s t) as [H K]; [constructor; [reflexivity | intro N; elim N; reflexivity] | intro N; elim N; reflexivity | exact P | exact R |].
  specialize (K W Y). destruct s as [rd ov st re q o str w]; pj. subst rd o. destruct w as [b|]; [|congruence].
  destruct str as [|ms0 err|].
  - destruct re.
    + exists [PData ms false; PHandle]. do 2 eexists. split; [repeat constructor|]. split; [|split; [|split; [cbn; reflexivity | reflexivity]]].
      * intros ms' err [I|[I|[]]]; [injection I as <- <-; auto | discriminate].
      * intros [I|[I|[]]]; discriminate.
    + destruct K as [K|[K|K]]; [discriminate| |congruence]. destruct q as [|q]; [lia|].
      exists [PRun; PData ms false; PHandle]. do 2 eexists. split; [repeat constructor|]. split; [|split; [|split; [cbn; pj; rewrite andb_false_r; cbn; reflexivity | reflexivity]]].
      * intros ms' err [I|[I|[I|[]]]]; try discriminate. injection I as <- <-; auto.
      * intros [I|[I|[I|[]]]]; discriminate.
  - exists [PHandle]. do 2 eexists. split; [repeat constructor|]. split; [|split; [|split; [cbn; reflexivity | reflexivity]]].
    * intros ms' err' [I|[]]; discriminate.
    * intros [I|[]]; discriminate.
  - exists [PFail]. do 2 eexists. split; [repeat constructor|]. split; [|split; [|split; [cbn; reflexivity | reflexivity]]].
    * intros ms' err' [I|[]]; discriminate.
    * intros [I|[]]; discriminate.
Qed.
Print Assumptions C105_partial.
(** closing the link ends the call, whenever it was made *)
Theorem C105_closed : forall c l s t, run c p0 l = Some (s, t) -> p_started s = false -> p_wait s = None.
Proof.
  intros c. assert (G : forall l s s' t, (p_started s = false -> p_wait s = None) -> run c s l = Some (s', t) -> p_started s' = false -> p_wait s' = None).
  { induction l as [|a l IH]; intros s s' t J R; cbn in R; [injection R as <- <-; exact J|].
    destruct (step c s a) as [[s1 e1]|] eqn:D; [|discriminate]. destruct (run c s1 l) as [[s2 e2]|] eqn:R2; [|discriminate].
    injection R as <- <-. refine (IH _ _ _ _ R2). clear IH R2. destruct a; cases D; auto; intros; try congruence; try (specialize (J H); congruence). }
  intros l s t R. refine (G l p0 s t _ R). reflexivity.
Qed.
Print Assumptions C105_closed.
Example C105_closed_ex : exists s t, run (mk_cfg true true) p0 [PCall false; PReady; PClose] = Some (s, t) /\ p_started s = false /\ t = [EAsk; EReturn NotApplicable].
Proof. do 2 eexists. split; [vm_compute; reflexivity|]. split; reflexivity. Qed.
(** the link goes down while the call waits for data *)
Example C105_down_ex : exists s t, run (mk_cfg true true) p0 [PReady; PCall false; PRun; PDown; PClose] = Some (s, t) /\ p_started s = false /\ t = [EAsk; ERead; EReturn NotApplicable].
Proof. do 2 eexists. split; [vm_compute; reflexivity|]. split; reflexivity. Qed.
(** a call with a time limit expires and leaves its read behind; the next one waits for the same read *)
Example C105_ex : exists s t, run (mk_cfg true true) p0 [PReady; PCall true; PRun; PTime; PCall false] = Some (s, t) /\
  punctual (mk_cfg true true) p0 [PReady; PCall true; PRun; PTime; PCall false] /\ p_wait s = Some false /\ p_ready s = true /\ p_queued s = 0 /\ p_out s = 1.
Proof. do 2 eexists. split; [vm_compute; reflexivity|]. split; [vm_compute; tauto|]. repeat split. Qed.

(** ** C106: an application that only calls sync_recv_msg gets all messages from it *)
Definition C106_statement : Prop := forall c l s t ms, c_sync c = true -> Forall (fun a => match a with PRecv => False | _ => True end) l -> run c p0 l = Some (s, t) -> p_started s = true -> ~ In (EAsync ms) t.
(** a call with a time limit leaves its read behind *)
Theorem C106_refuted : exists l s t, Forall (fun a => match a with PRecv => False | _ => True end) l /\ run (mk_cfg true true) p0 l = Some (s, t) /\ p_started s = true /\ In (EAsync [5%N]) t.
Proof.
  exists [PReady; PCall true; PRun; PTime; PData [5%N] false; PHandle]. do 2 eexists. split; [repeat constructor|]. split; [vm_compute; reflexivity|]. split; [reflexivity|]. cbn. auto 10.
Qed.
Print Assumptions C106_refuted.
Theorem C106_statement_refuted : ~ C106_statement.
Proof. intro C. destruct C106_refuted as (l & s & t & F & R & S & I). exact (C (mk_cfg true true) l s t [5%N] eq_refl F R S I). Qed.
Print Assumptions C106_statement_refuted.

Record I106 (s : pst) : Prop := mk_I106 {
  m_out : p_out s = if p_reading s then 1 else 0;
  m_wait : p_started s = true -> match p_wait s with
           | None => p_reading s = false /\ p_queued s = 0 /\ p_strand s = SFree
           | Some b => b = false
           end;
  m_err : p_started s = true -> forall ms, p_strand s <> SHave ms true;
  m_one : p_started s = true -> (if p_reading s then 1 else 0) + p_queued s + (match p_strand s with SFree => 0 | _ => 1 end) <= 1 }.
Lemma I106_step : forall c s a s' e, c_sync c = true -> purely_sync a = true -> I106 s -> step c s a = Some (s', e) -> I106 s' /\ (p_started s' = true -> p_started s = true) /\ (p_started s' = true -> forall ms, ~ In (EAsync ms) e).
Proof.
  intros c s a s' e S P [O W Z M] D.
  assert (O' : p_out s' = if p_reading s' then 1 else 0) by exact (j_out _ (I102_step c s a s' e (mk_I102 s O) D)).
  destruct s as [rd ov st re q o str w]; pj.
  destruct st; [specialize (W eq_refl); specialize (M eq_refl); specialize (Z eq_refl)|].
  2: { destruct a; try discriminate P; cases D; (split; [constructor; pj; [exact O' | discriminate | discriminate | discriminate] |]); split; congruence. }
  destruct w as [b|]; [subst b|destruct W as (-> & -> & ->)];
  (destruct a as [| |timed| | |ms [|]| | | | |]; try discriminate P; cases D; try discriminate; (split; [constructor; pj; [exact O' | | |]|split]); try discriminate; try congruence; auto; try lia; intros; try congruence).
  all: try (destruct timed; [discriminate P | reflexivity]).
  all: try (intros [I|I]; try discriminate I; try contradiction).
  all: try (destruct re; lia).
  all: try (elim (Z ms); reflexivity).
  all: try match goal with K : _ = SHave _ _ |- _ => rewrite K in M | K : _ = SFail |- _ => rewrite K in M end.
  all: try (split; [|split]; auto; destruct re; try lia).
Qed.
Theorem C106_partial : forall c l s t ms, c_sync c = true -> forallb purely_sync l = true -> run c p0 l = Some (s, t) -> p_started s = true -> ~ In (EAsync ms) t.
Proof.
  intros c l0 s0 t0 ms S.
  assert (G : forall l s s' t, I106 s -> forallb purely_sync l = true -> run c s l = Some (s', t) -> (p_started s' = true -> p_started s = true) /\ (p_started s' = true -> ~ In (EAsync ms) t)).
  { induction l as [|a l IH]; intros s s' t J P R; cbn in R; [injection R as <- <-; split; auto|].
    cbn in P. apply andb_true_iff in P. destruct P as [Pa P]. destruct (step c s a) as [[s1 e1]|] eqn:D; [|discriminate]. destruct (run c s1 l) as [[s2 e2]|] eqn:R2; [|discriminate].
    injection R as <- <-. destruct (I106_step c s a s1 e1 S Pa J D) as (J1 & A & B). destruct (IH _ _ _ J1 P R2) as [A' B']. split; [auto|].
    intros T I. apply in_app_or in I. destruct I as [I|I]; [exact (B (A' T) ms I) | exact (B' T I)]. }
  intros P R. refine (proj2 (G l0 p0 s0 t0 _ P R)). constructor; cbn; auto; intros; discriminate.
Qed.
Print Assumptions C106_partial.
(** the restriction on reads that end with messages and an error is needed *)
Example C106_sharp : exists s t, run (mk_cfg true true) p0 [PReady; PCall false; PRun; PData [1%N] true; PHandle; PCall false; PFail; PRun; PData [2%N] false; PHandle] = Some (s, t) /\ p_started s = true /\ In (EAsync [2%N]) t.
Proof. do 2 eexists. split; [vm_compute; reflexivity|]. split; [reflexivity|]. cbn. auto 20. Qed.
Example C106_ex : exists s t, run (mk_cfg true false) p0 [PReady; PCall false; PCall false; PRun; PData [1%N] false; PHandle; PCall false; PRun; PData [2%N; 3%N] false; PHandle] = Some (s, t) /\
  forallb purely_sync [PReady; PCall false; PCall false; PRun; PData [1%N] false; PHandle; PCall false; PRun; PData [2%N; 3%N] false; PHandle] = true /\ p_started s = true /\
  given t = [1; 2; 3]%N.
Proof. do 2 eexists. split; [vm_compute; reflexivity|]. repeat split. Qed.
