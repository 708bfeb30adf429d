(** C142: a name stands for the link that was added under it. *)
From Coq Require Import List Bool Arith Lia.
From Verif Require Import M_Bytes M_Names S_Names.
Import ListNotations.
Open Scope nat_scope.

(** ** the map and the list of sockets *)
Lemma find_erase n m l : find n (erase m l) = if m =? n then None else find n l.
Proof.
  induction l as [|[x i] l IH]; cbn [erase filter find fst]; [destruct (m =? n); reflexivity|]. fold (erase m l). destruct (Nat.eqb_spec x m) as [->|X]; cbn [negb find].
  - rewrite IH. destruct (m =? n); reflexivity.
  - rewrite IH. destruct (Nat.eqb_spec x n) as [->|Y]; [|reflexivity]. destruct (Nat.eqb_spec m n); [congruence|reflexivity].
Qed.
Lemma get_id i l k : get i l = Some k -> sk_id k = i.
Proof. induction l as [|x l IH]; cbn [get]; intros H; [discriminate H|]. destruct (Nat.eqb_spec (sk_id x) i); [injection H as <-; assumption|exact (IH H)]. Qed.
Lemma get_put j i p l : get j (put i p l) = match get j l with Some k => if j =? i then Some (mk_sk i (sk_name k) p) else Some k | None => None end.
Proof.
  induction l as [|x l IH]; [reflexivity|]. cbn [put map get]. fold (put i p l). destruct (Nat.eqb_spec (sk_id x) i) as [E|E].
  - cbn [sk_id]. destruct (Nat.eqb_spec i j) as [->|N].
    + rewrite E, Nat.eqb_refl. reflexivity.
    + rewrite E. destruct (Nat.eqb_spec i j); [congruence|]. exact IH.
  - destruct (Nat.eqb_spec (sk_id x) j) as [F|F]; [|exact IH]. destruct (Nat.eqb_spec j i); [congruence|reflexivity].
Qed.
Lemma get_snoc j l k : get j (l ++ [k]) = match get j l with Some x => Some x | None => if sk_id k =? j then Some k else None end.
Proof. induction l as [|x l IH]; [reflexivity|]. cbn [app get]. destruct (sk_id x =? j); [reflexivity|exact IH]. Qed.

(** ** steps in the middle of a trace *)
Lemma nrun_inv (P : nst -> list nev -> Prop) (H : list nev -> Prop) :
  (forall s tr a s' e, P s tr -> H (tr ++ e) -> nstep s a = Some (s', e) -> P s' (tr ++ e)) ->
  (forall a b, H (a ++ b) -> H a) ->
  forall l s tr s' t, P s tr -> H (tr ++ t) -> nrun s l = Some (s', t) -> P s' (tr ++ t).
Proof.
  intros ST PR. induction l as [|a l IH]; intros s tr s' t I HT R; cbn [nrun] in R; [injection R as <- <-; rewrite app_nil_r; exact I|].
  destruct (nstep s a) as [[s1 t1]|] eqn:E; [|discriminate R]. destruct (nrun s1 l) as [[s2 t2]|] eqn:E2; [|discriminate R]. injection R as <- <-.
  rewrite app_assoc in *. exact (IH _ _ _ _ (ST _ _ _ _ _ I (PR _ _ HT) E) HT E2).
Qed.
(** every step has one event or none *)
Lemma nstep_one s a s' e : nstep s a = Some (s', e) -> e = [] \/ exists x, e = [x].
Proof.
  intros H. destruct a as [n room|n|n m|i ok|i|i]; cbn [nstep] in H.
  - destruct (find n (n_map s)); [|destruct room]; injection H as _ <-; right; eexists; reflexivity.
  - destruct (find n (n_map s)); [destruct (get _ _); [|discriminate H]|]; injection H as _ <-; right; eexists; reflexivity.
  - injection H as _ <-. right; eexists; reflexivity.
  - destruct (get i (n_socks s)) as [k|]; [|discriminate H]. destruct (sk_ph k); try discriminate H; destruct ok; injection H as _ <-; right; eexists; reflexivity.
  - destruct (get i (n_socks s)) as [k|]; [|discriminate H]. destruct (sk_ph k); try discriminate H; injection H as _ <-; left; reflexivity.
  - destruct (get i (n_socks s)) as [k|]; [|discriminate H]. destruct (sk_ph k); try discriminate H; injection H as _ <-; right; eexists; reflexivity.
Qed.
Lemma snoc_split {A} (tr a b : list A) x e : tr ++ [x] = a ++ e :: b -> (b = [] /\ a = tr /\ e = x) \/ exists b', b = b' ++ [x] /\ tr = a ++ e :: b'.
Proof.
  intros H. destruct b as [|y b _] using rev_ind.
  - left. apply app_inj_tail in H as [-> ->]. auto.
  - right. exists b. rewrite app_comm_cons, app_assoc in H. apply app_inj_tail in H as [-> ->]. auto.
Qed.

(** ** what always holds: no call reaches another link than the last one that was added under the name and not deleted *)
Record IL (s : nst) (tr : list nev) : Prop := {
  il_map : forall n i, find n (n_map s) = Some i -> last_of n tr = Some i;
  il_id : forall n i, last_of n tr = Some i -> i <= n_cur s;
  il_ok : last_ok tr
}.
Lemma last_snoc n tr e : last_of n (tr ++ [e]) = last_step n (last_of n tr) e.
Proof. unfold last_of. rewrite fold_left_app. reflexivity. Qed.
Lemma ok_snoc tr e : last_ok tr -> (match e with
  | VDel n (Some i) | VSend n _ (Some i) => last_of n tr = Some i
  | VAdd n None => exists i, last_of n tr = Some i
  | VAdd n (Some i) => forall x, last_of x tr <> Some i
  | _ => True
  end) -> last_ok (tr ++ [e]).
Proof. intros O H a x b E. apply snoc_split in E as [(-> & -> & ->)|(b' & -> & ->)]; [exact H|]. exact (O a x b' eq_refl). Qed.
Lemma IL_same s s' tr e : (forall n i, find n (n_map s') = Some i -> find n (n_map s) = Some i) -> n_cur s <= n_cur s' ->
  match e with VUp _ | VOver _ | VFull => True | _ => False end -> IL s tr -> IL s' (tr ++ [e]).
Proof.
  intros F C K [A B D]. assert (L : forall n, last_of n (tr ++ [e]) = last_of n tr) by (intros n; rewrite last_snoc; destruct e; try contradiction K; reflexivity).
  constructor.
  - intros n i H. rewrite L. apply A, F, H.
  - intros n i H. rewrite L in H. apply B in H. lia.
  - apply ok_snoc; [exact D|]. destruct e; try contradiction K; exact I.
Qed.
Lemma IL_step s tr a s' e : IL s tr -> True -> nstep s a = Some (s', e) -> IL s' (tr ++ e).
Proof.
  intros I0 _ H. destruct a as [n room|n|n m|i ok|i|i]; cbn [nstep] in H.
  - destruct (find n (n_map s)) as [i|] eqn:F; [|destruct room]; injection H as <- <-.
    + destruct I0 as [A B D]. constructor; [intros x j X; rewrite last_snoc; exact (A x j X)|intros x j X; rewrite last_snoc in X; exact (B x j X)|].
      apply ok_snoc; [exact D|]. exists i. exact (A n i F).
    + destruct I0 as [A B D]. constructor; cbn [n_map n_cur].
      * intros x j X. rewrite last_snoc. cbn [last_step find] in *. destruct (n =? x); [exact X|exact (A x j X)].
      * intros x j X. rewrite last_snoc in X. cbn [last_step] in X. destruct (n =? x); [injection X as <-; lia|]. apply B in X. lia.
      * apply ok_snoc; [exact D|]. intros x X. apply B in X. lia.
    + apply (IL_same s); [auto|cbn [n_cur]; lia|exact I|exact I0].
  - destruct (find n (n_map s)) as [i|] eqn:F; [destruct (get i (n_socks s)) as [k|]; [|discriminate H]|]; injection H as <- <-.
    + destruct I0 as [A B D]. constructor; cbn [n_map n_cur].
      * intros x j X. rewrite find_erase in X. rewrite last_snoc. cbn [last_step]. destruct (n =? x); [discriminate X|exact (A x j X)].
      * intros x j X. rewrite last_snoc in X. cbn [last_step] in X. destruct (n =? x); [discriminate X|exact (B x j X)].
      * apply ok_snoc; [exact D|]. exact (A n i F).
    + destruct I0 as [A B D]. constructor; [intros x j X; rewrite last_snoc; exact (A x j X)|intros x j X; rewrite last_snoc in X; exact (B x j X)|]. apply ok_snoc; [exact D|exact I].
  - injection H as <- <-. destruct I0 as [A B D]. constructor; [intros x j X; rewrite last_snoc; exact (A x j X)|intros x j X; rewrite last_snoc in X; exact (B x j X)|].
    apply ok_snoc; [exact D|]. destruct (find n (n_map s)) eqn:F; [exact (A _ _ F)|exact I].
  - destruct (get i (n_socks s)) as [k|]; [|discriminate H]. destruct (sk_ph k); try discriminate H; destruct ok; injection H as <- <-; (apply (IL_same s); [auto|cbn [n_cur]; lia|exact I|exact I0]).
  - destruct (get i (n_socks s)) as [k|]; [|discriminate H]. destruct (sk_ph k); try discriminate H; injection H as <- <-. rewrite app_nil_r. destruct I0 as [A B D]. constructor; assumption.
  - destruct (get i (n_socks s)) as [k|]; [|discriminate H]. destruct (sk_ph k); try discriminate H; injection H as <- <-;
      (apply (IL_same s); [intros n j X; cbn [n_map] in X; rewrite find_erase in X; destruct (_ =? n); [discriminate X|exact X]|cbn [n_cur]; lia|exact I|exact I0]).
Qed.
Theorem C142_own l s t : nrun n0 l = Some (s, t) -> last_ok t.
Proof.
  intros H. refine (il_ok _ _ (nrun_inv IL (fun _ => True) IL_step (fun _ _ _ => I) l n0 [] s t _ I H)).
  constructor; [intros n i X; discriminate X|intros n i X; discriminate X|]. intros a e b E. destruct a; discriminate E.
Qed.
Print Assumptions C142_own.

(** ** names that are used again when their former links are over, and connections that can be made *)
Record IP (s : nst) (tr : list nev) : Prop := {
  ip_map : forall n, find n (n_map s) = link_of n tr;
  ip_link : forall n i, link_of n tr = Some i -> exists k, get i (n_socks s) = Some k /\ sk_name k = n /\ (sk_ph k = PConn \/ sk_ph k = PUp \/ sk_ph k = PShut);
  ip_live : forall i k, get i (n_socks s) = Some k -> sk_ph k <> POver -> In i (live (sk_name k) tr);
  ip_few : forall n, length (live n tr) <= 1;
  ip_ids : forall i k, get i (n_socks s) = Some k -> i <= n_cur s;
  ip_evs : forall i, n_cur s < i -> ~ In (VUp i) tr /\ (forall n, ~ In (VDel n (Some i)) tr) /\ forall n, ~ In i (live n tr);
  ip_conn : forall i k, get i (n_socks s) = Some k -> sk_ph k = PConn -> ~ In (VUp i) tr /\ forall n, ~ In (VDel n (Some i)) tr;
  ip_ok : answers tr
}.
Lemma link_snoc n tr e : link_of n (tr ++ [e]) = link_step n (link_of n tr) e.
Proof. unfold link_of. rewrite fold_left_app. reflexivity. Qed.
Lemma live_snoc n tr e : live n (tr ++ [e]) = live_step n (live n tr) e.
Proof. unfold live. rewrite fold_left_app. reflexivity. Qed.
Lemma ans_snoc tr e : answers tr -> (match e with
  | VAdd n (Some _) => link_of n tr = None
  | VAdd n None => link_of n tr <> None
  | VDel n r => r = link_of n tr
  | VSend n _ r => r = link_of n tr
  | _ => True
  end) -> answers (tr ++ [e]).
Proof. intros O H a x b E. apply snoc_split in E as [(-> & -> & ->)|(b' & -> & ->)]; [exact H|]. exact (O a x b' eq_refl). Qed.
Definition HP (tr : list nev) : Prop := patient tr /\ connects tr.
Lemma HP_pre a b : HP (a ++ b) -> HP a.
Proof.
  intros [P C]. split.
  - intros x n i y ->. apply (P x n i (y ++ b)). rewrite <- app_assoc. reflexivity.
  - intros x i y ->. apply (C x i (y ++ b)). rewrite <- app_assoc. reflexivity.
Qed.
Lemma few_same l (a b : nat) : length l <= 1 -> In a l -> In b l -> a = b.
Proof. destruct l as [|x [|y l]]; cbn [length In]; intros H A B; [contradiction|destruct A as [A|[]], B as [B|[]]; congruence|lia]. Qed.
Lemma filter_len {A} (f : A -> bool) l : length (filter f l) <= length l.
Proof. induction l as [|x l IH]; [auto|]. cbn [filter]. destruct (f x); cbn [length]; lia. Qed.
(** an event that is about no link, while the sockets stay the same *)
Lemma IP_same s tr e : (match e with VSend _ _ _ | VAdd _ None | VDel _ None => True | _ => False end) -> (match e with
  | VAdd n None => link_of n tr <> None
  | VDel n r => r = link_of n tr
  | VSend n _ r => r = link_of n tr
  | _ => True
  end) -> IP s tr -> IP s (tr ++ [e]).
Proof.
  intros K H [A1 A2 A3 A4 A5 A6 A7 A8].
  assert (L : forall n, link_of n (tr ++ [e]) = link_of n tr) by (intros n; rewrite link_snoc; destruct e as [? [|]|? [|]| | | |]; try contradiction K; reflexivity).
  assert (V : forall n, live n (tr ++ [e]) = live n tr) by (intros n; rewrite live_snoc; destruct e as [? [|]|? [|]| | | |]; try contradiction K; reflexivity).
  assert (U : forall i, In (VUp i) (tr ++ [e]) -> In (VUp i) tr) by (intros i X; apply in_app_or in X as [X|[X|[]]]; [exact X|]; subst e; contradiction K).
  assert (D : forall n i, In (VDel n (Some i)) (tr ++ [e]) -> In (VDel n (Some i)) tr) by (intros n i X; apply in_app_or in X as [X|[X|[]]]; [exact X|]; subst e; contradiction K).
  constructor.
  - intros n. rewrite L. apply A1.
  - intros n i. rewrite L. apply A2.
  - intros i k G P. rewrite V. exact (A3 i k G P).
  - intros n. rewrite V. apply A4.
  - exact A5.
  - intros i LT. destruct (A6 i LT) as (B1 & B2 & B3). split; [intros X; exact (B1 (U _ X))|]. split; [intros n X; exact (B2 n (D _ _ X))|]. intros n. rewrite V. apply B3.
  - intros i k G P. destruct (A7 i k G P) as (B1 & B2). split; [intros X; exact (B1 (U _ X))|]. intros n X; exact (B2 n (D _ _ X)).
  - apply ans_snoc; [exact A8|]. destruct e as [? [|]|? [|]| | | |]; try contradiction K; exact H.
Qed.
(** a socket changes its phase: the event says that it is up, or there is none *)
Lemma IP_phase s tr i k p e : get i (n_socks s) = Some k -> sk_ph k <> POver -> (e = [VUp i] \/ e = [] ) -> p <> PConn -> p <> POver ->
  (p = PConnShut -> sk_ph k = PConnShut) -> (sk_ph k = PConnShut -> link_of (sk_name k) tr <> Some i) -> (p = PUp \/ p = PShut) ->
  IP s tr -> IP (mk_n (n_map s) (put i p (n_socks s)) (n_cur s)) (tr ++ e).
Proof.
  intros G NP E P1 P2 P3 P4 P5 [A1 A2 A3 A4 A5 A6 A7 A8].
  assert (L : forall n, link_of n (tr ++ e) = link_of n tr) by (intros n; destruct E as [->| ->]; [rewrite link_snoc|rewrite app_nil_r]; reflexivity).
  assert (V : forall n, live n (tr ++ e) = live n tr) by (intros n; destruct E as [->| ->]; [rewrite live_snoc|rewrite app_nil_r]; reflexivity).
  assert (U : forall j, In (VUp j) (tr ++ e) -> In (VUp j) tr \/ j = i).
  { intros j X. apply in_app_or in X as [X|X]; [auto|]. destruct E as [->| ->]; [destruct X as [X|[]]|destruct X]. injection X as ->. auto. }
  assert (D : forall n j, In (VDel n (Some j)) (tr ++ e) -> In (VDel n (Some j)) tr).
  { intros n j X. apply in_app_or in X as [X|X]; [auto|]. destruct E as [->| ->]; [destruct X as [X|[]]|destruct X]. discriminate X. }
  constructor; cbn [n_map n_socks n_cur].
  - intros n. rewrite L. apply A1.
  - intros n j X. rewrite L in X. destruct (A2 n j X) as (k1 & G1 & N1 & PH). rewrite get_put, G1. destruct (Nat.eqb_spec j i) as [->|NE]; [|exists k1; auto].
    eexists. split; [reflexivity|]. cbn [sk_name sk_ph]. split; [exact N1|]. right. exact P5.
  - intros j k1 G1 PH. rewrite V. rewrite get_put in G1. destruct (get j (n_socks s)) as [k2|] eqn:G2; [|discriminate G1].
    destruct (Nat.eqb_spec j i) as [->|NE]; injection G1 as <-; [|exact (A3 j k2 G2 PH)]. cbn [sk_name]. rewrite G in G2. injection G2 as <-. exact (A3 i k G NP).
  - intros n. rewrite V. apply A4.
  - intros j k1 G1. rewrite get_put in G1. destruct (get j (n_socks s)) as [k2|] eqn:G2; [|discriminate G1]. exact (A5 j k2 G2).
  - intros j LT. destruct (A6 j LT) as (B1 & B2 & B3). split; [|split].
    + intros X. apply U in X as [X| ->]; [exact (B1 X)|]. apply A5 in G. lia.
    + intros n X. exact (B2 n (D _ _ X)).
    + intros n. rewrite V. apply B3.
  - intros j k1 G1 PH. rewrite get_put in G1. destruct (get j (n_socks s)) as [k2|] eqn:G2; [|discriminate G1].
    destruct (Nat.eqb_spec j i) as [->|NE]; injection G1 as <-; [cbn [sk_ph] in PH; contradiction|]. destruct (A7 j k2 G2 PH) as [B1 B2]. split; [|intros n X; exact (B2 n (D _ _ X))].
    intros X. apply U in X as [X| ->]; [exact (B1 X)|contradiction].
  - destruct E as [->| ->]; [|rewrite app_nil_r; exact A8]. apply ans_snoc; [exact A8|exact I].
Qed.
(** a socket is over *)
Lemma IP_over s tr i k m : get i (n_socks s) = Some k -> sk_ph k <> POver ->
  (forall n, find n m = match link_of n tr with Some j => if j =? i then None else Some j | None => None end) ->
  IP s tr -> IP (mk_n m (put i POver (n_socks s)) (n_cur s)) (tr ++ [VOver i]).
Proof.
  intros G NP MP [A1 A2 A3 A4 A5 A6 A7 A8]. constructor; cbn [n_map n_socks n_cur].
  - intros n. rewrite link_snoc, MP. cbn [link_step]. destruct (link_of n tr) as [j|]; [|reflexivity]. destruct (j =? i); reflexivity.
  - intros n j X. rewrite link_snoc in X. cbn [link_step] in X. destruct (link_of n tr) as [j0|] eqn:L; [|discriminate X]. destruct (Nat.eqb_spec j0 i) as [->|NE]; [discriminate X|]. injection X as ->.
    destruct (A2 n j L) as (k1 & G1 & N1 & PH). rewrite get_put, G1. destruct (Nat.eqb_spec j i); [contradiction|]. exists k1. auto.
  - intros j k1 G1 PH. rewrite live_snoc. cbn [live_step]. rewrite get_put in G1. destruct (get j (n_socks s)) as [k2|] eqn:G2; [|discriminate G1].
    destruct (Nat.eqb_spec j i) as [->|NE]; injection G1 as <-; [cbn [sk_ph] in PH; contradiction|]. apply filter_In. split; [exact (A3 j k2 G2 PH)|]. apply Nat.eqb_neq in NE. rewrite NE. reflexivity.
  - intros n. rewrite live_snoc. cbn [live_step]. assert (F := filter_len (fun j => negb (j =? i)) (live n tr)). specialize (A4 n). lia.
  - intros j k1 G1. rewrite get_put in G1. destruct (get j (n_socks s)) as [k2|] eqn:G2; [|discriminate G1]. exact (A5 j k2 G2).
  - intros j LT. destruct (A6 j LT) as (B1 & B2 & B3). split; [|split].
    + intros X. apply in_app_or in X as [X|[X|[]]]; [exact (B1 X)|discriminate X].
    + intros n X. apply in_app_or in X as [X|[X|[]]]; [exact (B2 n X)|discriminate X].
    + intros n X. rewrite live_snoc in X. cbn [live_step] in X. apply filter_In in X as [X _]. exact (B3 n X).
  - intros j k1 G1 PH. rewrite get_put in G1. destruct (get j (n_socks s)) as [k2|] eqn:G2; [|discriminate G1].
    destruct (Nat.eqb_spec j i) as [->|NE]; injection G1 as <-; [cbn [sk_ph] in PH; discriminate PH|]. destruct (A7 j k2 G2 PH) as [B1 B2].
    split; [intros X|intros n X]; apply in_app_or in X as [X|[X|[]]]; try discriminate X; [exact (B1 X)|exact (B2 n X)].
  - apply ans_snoc; [exact A8|exact I].
Qed.
Lemma IP_step s tr a s' e : IP s tr -> HP (tr ++ e) -> nstep s a = Some (s', e) -> IP s' (tr ++ e).
Proof.
  intros I0 [PT CN] H. assert (I1 := I0). destruct I1 as [A1 A2 A3 A4 A5 A6 A7 A8]. destruct a as [n room|n|n m|i ok|i|i]; cbn [nstep] in H.
  - destruct (find n (n_map s)) as [i|] eqn:F; [|destruct room]; injection H as <- <-.
    + apply IP_same; [exact I| |exact I0]. rewrite <- A1, F. discriminate.
    + set (i := S (n_cur s)) in *. assert (NV := PT tr n i [] eq_refl). assert (NG : get i (n_socks s) = None). { destruct (get i (n_socks s)) as [k|] eqn:G; [|reflexivity]. apply A5 in G. unfold i in G. lia. }
      destruct (A6 i ltac:(unfold i; lia)) as (N1 & N2 & N3).
      constructor; cbn [n_map n_socks n_cur].
      * intros x. rewrite link_snoc. cbn [link_step find]. destruct (n =? x); [reflexivity|apply A1].
      * intros x j X. rewrite link_snoc in X. cbn [link_step] in X. rewrite get_snoc. cbn [sk_id]. destruct (Nat.eqb_spec n x) as [->|NE].
        -- injection X as <-. rewrite NG, Nat.eqb_refl. eexists. split; [reflexivity|]. cbn [sk_name sk_ph]. auto.
        -- destruct (A2 x j X) as (k & G & R). rewrite G. exists k. auto.
      * intros j k G PH. rewrite live_snoc. cbn [live_step]. rewrite get_snoc in G. destruct (get j (n_socks s)) as [k2|] eqn:G2.
        -- injection G as <-. destruct (n =? sk_name k2); [right|]; exact (A3 j k2 G2 PH).
        -- cbn [sk_id] in G. destruct (Nat.eqb_spec i j) as [<-|NE]; [|discriminate G]. injection G as <-. cbn [sk_name]. rewrite Nat.eqb_refl. left. reflexivity.
      * intros x. rewrite live_snoc. cbn [live_step]. destruct (Nat.eqb_spec n x) as [<-|NE]; [rewrite NV; cbn; lia|apply A4].
      * intros j k G. rewrite get_snoc in G. destruct (get j (n_socks s)) as [k2|] eqn:G2; [apply A5 in G2; unfold i; lia|]. cbn [sk_id] in G. destruct (Nat.eqb_spec i j) as [<-|NE]; [reflexivity|discriminate G].
      * intros j LT. destruct (A6 j ltac:(unfold i in LT; lia)) as (B1 & B2 & B3). split; [|split].
        -- intros X. apply in_app_or in X as [X|[X|[]]]; [exact (B1 X)|discriminate X].
        -- intros x X. apply in_app_or in X as [X|[X|[]]]; [exact (B2 x X)|discriminate X].
        -- intros x X. rewrite live_snoc in X. cbn [live_step] in X. destruct (n =? x); [destruct X as [X|X]; [lia|]|]; exact (B3 x X).
      * intros j k G PH. rewrite get_snoc in G. destruct (get j (n_socks s)) as [k2|] eqn:G2.
        -- injection G as <-. destruct (A7 j k2 G2 PH) as [B1 B2]. split; [intros X|intros x X]; apply in_app_or in X as [X|[X|[]]]; try discriminate X; [exact (B1 X)|exact (B2 x X)].
        -- cbn [sk_id] in G. destruct (Nat.eqb_spec i j) as [<-|NE]; [|discriminate G]. split; [intros X|intros x X]; apply in_app_or in X as [X|[X|[]]]; try discriminate X; [exact (N1 X)|exact (N2 x X)].
      * apply ans_snoc; [exact A8|]. rewrite <- A1. exact F.
    + assert (L : forall x, link_of x (tr ++ [VFull]) = link_of x tr) by (intros x; rewrite link_snoc; reflexivity).
      assert (V : forall x, live x (tr ++ [VFull]) = live x tr) by (intros x; rewrite live_snoc; reflexivity).
      assert (U : forall y, In y (tr ++ [VFull]) -> In y tr \/ y = VFull) by (intros y X; apply in_app_or in X as [X|[X|[]]]; auto).
      constructor; cbn [n_map n_socks n_cur].
      * intros x. rewrite L. apply A1.
      * intros x j. rewrite L. apply A2.
      * intros j k G PH. rewrite V. exact (A3 j k G PH).
      * intros x. rewrite V. apply A4.
      * intros j k G. apply A5 in G. lia.
      * intros j LT. destruct (A6 j ltac:(lia)) as (B1 & B2 & B3). split; [|split].
        -- intros X. apply U in X as [X|X]; [exact (B1 X)|discriminate X].
        -- intros x X. apply U in X as [X|X]; [exact (B2 x X)|discriminate X].
        -- intros x. rewrite V. apply B3.
      * intros j k G PH. destruct (A7 j k G PH) as [B1 B2]. split; [intros X|intros x X]; apply U in X as [X|X]; try discriminate X; [exact (B1 X)|exact (B2 x X)].
      * apply ans_snoc; [exact A8|exact I].
  - destruct (find n (n_map s)) as [i|] eqn:F; [destruct (get i (n_socks s)) as [k|] eqn:G; [|discriminate H]|]; injection H as <- <-.
    + assert (LK := A1 n). rewrite F in LK. symmetry in LK. destruct (A2 n i LK) as (k1 & G1 & NK & PH). rewrite G in G1. injection G1 as <-.
      assert (V : forall x, live x (tr ++ [VDel n (Some i)]) = live x tr) by (intros x; rewrite live_snoc; reflexivity).
      assert (SP : shut (sk_ph k) <> POver /\ shut (sk_ph k) <> PConn /\ sk_ph k <> POver) by (destruct PH as [-> | [-> | ->]]; repeat split; discriminate). destruct SP as (SP1 & SP2 & SP3).
      constructor; cbn [n_map n_socks n_cur].
      * intros x. rewrite find_erase, link_snoc. cbn [link_step]. rewrite A1. reflexivity.
      * intros x j X. rewrite link_snoc in X. cbn [link_step] in X. destruct (Nat.eqb_spec n x) as [->|NE]; [discriminate X|]. destruct (A2 x j X) as (k2 & G2 & N2 & P2). rewrite get_put, G2.
        destruct (Nat.eqb_spec j i) as [->|NJ]; [|exists k2; auto]. rewrite G in G2. injection G2 as <-. congruence.
      * intros j k2 G2 P2. rewrite V. rewrite get_put in G2. destruct (get j (n_socks s)) as [k3|] eqn:G3; [|discriminate G2].
        destruct (Nat.eqb_spec j i) as [->|NJ]; injection G2 as <-; [|exact (A3 j k3 G3 P2)]. cbn [sk_name]. rewrite G in G3. injection G3 as <-. exact (A3 i k G SP3).
      * intros x. rewrite V. apply A4.
      * intros j k2 G2. rewrite get_put in G2. destruct (get j (n_socks s)) as [k3|] eqn:G3; [|discriminate G2]. exact (A5 j k3 G3).
      * intros j LT. destruct (A6 j LT) as (B1 & B2 & B3). split; [|split].
        -- intros X. apply in_app_or in X as [X|[X|[]]]; [exact (B1 X)|discriminate X].
        -- intros x X. apply in_app_or in X as [X|[X|[]]]; [exact (B2 x X)|]. injection X as _ ->. apply A5 in G. lia.
        -- intros x. rewrite V. apply B3.
      * intros j k2 G2 P2. rewrite get_put in G2. destruct (get j (n_socks s)) as [k3|] eqn:G3; [|discriminate G2].
        destruct (Nat.eqb_spec j i) as [->|NJ]; injection G2 as <-; [cbn [sk_ph] in P2; contradiction|]. destruct (A7 j k3 G3 P2) as [B1 B2].
        split; [intros X|intros x X]; apply in_app_or in X as [X|[X|[]]]; try discriminate X; [exact (B1 X)|exact (B2 x X)|]. injection X as _ ->. contradiction.
      * apply ans_snoc; [exact A8|]. symmetry. exact LK.
    + apply IP_same; [exact I| |exact I0]. rewrite <- A1, F. reflexivity.
  - injection H as <- <-. apply IP_same; [exact I|apply A1|exact I0].
  - destruct (get i (n_socks s)) as [k|] eqn:G; [|discriminate H].
    assert (NS : sk_ph k = PConnShut -> forall n, link_of n tr <> Some i). { intros P n L. destruct (A2 n i L) as (k1 & G1 & _ & PH). rewrite G in G1. injection G1 as <-. rewrite P in PH. destruct PH as [X|[X|X]]; discriminate X. }
    destruct (sk_ph k) eqn:PH; try discriminate H; destruct ok; injection H as <- <-.
    + apply (IP_phase s tr i k); auto; try discriminate; rewrite ?PH; try discriminate.
    + exfalso. destruct (A7 i k G PH) as [B1 B2]. destruct (CN tr i [] eq_refl) as [X|(n & X)]; [exact (B1 X)|exact (B2 n X)].
    + apply (IP_phase s tr i k); auto; try discriminate; rewrite ?PH; try discriminate.
    + apply (IP_over s tr i k); [exact G|rewrite PH; discriminate| |exact I0]. intros n. rewrite A1. specialize (NS eq_refl n). destruct (link_of n tr) as [j|]; [|reflexivity].
      destruct (Nat.eqb_spec j i) as [->|NE]; [contradiction|reflexivity].
  - destruct (get i (n_socks s)) as [k|] eqn:G; [|discriminate H]. destruct (sk_ph k) eqn:PH; try discriminate H; injection H as <- <-.
    apply (IP_phase s tr i k); auto; try discriminate; rewrite ?PH; try discriminate.
  - destruct (get i (n_socks s)) as [k|] eqn:G; [|discriminate H].
    assert (FN : sk_ph k <> POver -> forall n, find n (erase (sk_name k) (n_map s)) = match link_of n tr with Some j => if j =? i then None else Some j | None => None end).
    { intros NP n. rewrite find_erase, A1. destruct (link_of n tr) as [j|] eqn:L; [|destruct (_ =? n); reflexivity]. destruct (A2 n j L) as (k1 & G1 & N1 & P1).
      assert (NP1 : sk_ph k1 <> POver) by (destruct P1 as [-> | [-> | ->]]; discriminate).
      destruct (Nat.eqb_spec (sk_name k) n) as [E|E].
      - assert (j = i) as ->. { apply (few_same (live n tr)); [apply A4| |]; [rewrite <- N1; exact (A3 j k1 G1 NP1)|rewrite <- E; exact (A3 i k G NP)]. } rewrite Nat.eqb_refl. reflexivity.
      - destruct (Nat.eqb_spec j i) as [->|NE]; [|reflexivity]. rewrite G in G1. injection G1 as <-. contradiction. }
    destruct (sk_ph k) eqn:PH; try discriminate H; injection H as <- <-; (apply (IP_over s tr i k); [exact G|rewrite PH; discriminate|apply FN; discriminate|exact I0]).
Qed.

(** The property: *)
Definition C142_statement : Prop := forall l s t, nrun n0 l = Some (s, t) -> answers t.
(** ... holds if a name is used again only when its former links are over and connections can be made; missing: the other cases, where it is
    false *)
Theorem C142_partial l s t : nrun n0 l = Some (s, t) -> patient t -> connects t -> answers t.
Proof.
  intros H P C. refine (ip_ok _ _ (nrun_inv IP HP IP_step HP_pre l n0 [] s t _ (conj P C) H)).
  constructor; cbn; try (intros; discriminate); auto. intros a e b E. destruct a; discriminate E.
Qed.
Print Assumptions C142_partial.

(** ** a link that was deleted is shut down and stays so *)
Definition down (s : nst) (tr : list nev) : Prop := forall n i, In (VDel n (Some i)) tr -> exists k, get i (n_socks s) = Some k /\ closed (sk_ph k) = true.
Lemma down_put s tr i p m c : (forall k, get i (n_socks s) = Some k -> closed (sk_ph k) = true -> closed p = true) -> down s tr -> down (mk_n m (put i p (n_socks s)) c) tr.
Proof.
  intros H D n j IN. destruct (D n j IN) as (k & G & C). cbn [n_socks]. rewrite get_put, G. destruct (Nat.eqb_spec j i) as [->|N]; [|exists k; auto].
  eexists. split; [reflexivity|]. cbn [sk_ph]. exact (H k G C).
Qed.
Lemma down_more (s : nst) s' tr e : down s' tr -> (forall n i, e <> VDel n (Some i)) -> down s' (tr ++ [e]) .
Proof. intros D H n i IN. apply in_app_or in IN as [IN|[IN|[]]]; [exact (D n i IN)|]. destruct (H n i IN). Qed.
Lemma down_step s tr a s' e : down s tr -> True -> nstep s a = Some (s', e) -> down s' (tr ++ e).
Proof.
  intros D _ H. destruct a as [n room|n|n m|i ok|i|i]; cbn [nstep] in H.
  - destruct (find n (n_map s)) as [i|] eqn:F; [|destruct room]; injection H as <- <-; (apply (down_more s); [|discriminate]); [exact D| |intros x j IN; exact (D x j IN)].
    intros x j IN. destruct (D x j IN) as (k & G & C). exists k. split; [|exact C]. cbn [n_socks]. rewrite get_snoc, G. reflexivity.
  - destruct (find n (n_map s)) as [i|] eqn:F; [destruct (get i (n_socks s)) as [k|] eqn:G; [|discriminate H]|]; injection H as <- <-; [|apply (down_more s); [exact D|discriminate]].
    assert (CS : closed (shut (sk_ph k)) = true) by (destruct (sk_ph k); reflexivity).
    assert (D1 := down_put s tr i (shut (sk_ph k)) (erase n (n_map s)) (n_cur s) (fun _ _ _ => CS) D).
    intros x j IN. apply in_app_or in IN as [IN|[IN|[]]]; [exact (D1 x j IN)|]. injection IN as _ <-. cbn [n_socks]. rewrite get_put, G, Nat.eqb_refl. eexists. split; [reflexivity|exact CS].
  - injection H as <- <-. apply (down_more s); [exact D|discriminate].
  - destruct (get i (n_socks s)) as [k|] eqn:G; [|discriminate H]. destruct (sk_ph k) eqn:PH; try discriminate H; destruct ok; injection H as <- <-;
      (apply (down_more s); [|discriminate]); (apply down_put; [|exact D]); intros k1 G1 C1; try reflexivity; rewrite G in G1; injection G1 as <-; rewrite PH in C1; discriminate C1.
  - destruct (get i (n_socks s)) as [k|] eqn:G; [|discriminate H]. destruct (sk_ph k) eqn:PH; try discriminate H; injection H as <- <-. rewrite app_nil_r. apply down_put; [reflexivity|exact D].
  - destruct (get i (n_socks s)) as [k|] eqn:G; [|discriminate H]. destruct (sk_ph k) eqn:PH; try discriminate H; injection H as <- <-; (apply (down_more s); [|discriminate]); (apply down_put; [reflexivity|exact D]).
Qed.
Theorem C142_down l s t n i : nrun n0 l = Some (s, t) -> In (VDel n (Some i)) t -> exists k, get i (n_socks s) = Some k /\ closed (sk_ph k) = true.
Proof.
  intros H. refine (nrun_inv down (fun _ => True) down_step (fun _ _ _ => I) l n0 [] s t _ I H n i). intros x j [].
Qed.
Print Assumptions C142_down.
Example C142_down_example : exists s t, nrun n0 [NAdd 1 true; NAdd 2 true; NConn 1 true; NDel 1; NDel 2; NConn 2 true] = Some (s, t) /\ In (VDel 1 (Some 1)) t /\ In (VDel 2 (Some 2)) t /\
  map sk_ph (n_socks s) = [PShut; PShut].
Proof. do 2 eexists. split; [vm_compute; reflexivity|]. vm_compute. tauto. Qed.

(** ** refutations *)
Definition nm : nat := 7.
(** deleted and added again at once; then the former link's read fails, and its handler takes the name from the new link *)
Definition ex_quick : list nact := [NAdd nm true; NConn 1 true; NDel nm; NAdd nm true; NConn 2 true; NErr 1].
(** a link that is not in the map is never reached again *)
Definition out (i : nat) (s : nst) : Prop := i <= n_cur s /\ forall n, find n (n_map s) <> Some i.
Definition quiet (i : nat) (t : list nev) : Prop := forall n, (forall m, ~ In (VSend n m (Some i)) t) /\ ~ In (VDel n (Some i)) t.
Lemma out_step i s a s' e : out i s -> nstep s a = Some (s', e) -> out i s' /\ quiet i e.
Proof.
  intros [C O] H. assert (Q : forall x, (forall n m, x <> VSend n m (Some i)) -> (forall n, x <> VDel n (Some i)) -> quiet i [x]).
  { intros x X Y n. split; [intros m [Z|[]]; exact (X n m Z)|intros [Z|[]]; exact (Y n Z)]. }
  destruct a as [n room|n|n m|j ok|j|j]; cbn [nstep] in H.
  - destruct (find n (n_map s)) as [j|] eqn:F; [|destruct room]; injection H as <- <-; (split; [|apply Q; discriminate]); [split; assumption| |split; cbn [n_cur n_map]; [lia|exact O]].
    split; cbn [n_cur n_map]; [lia|]. intros x. cbn [find]. destruct (n =? x); [|apply O]. intros X. injection X as X. lia.
  - destruct (find n (n_map s)) as [j|] eqn:F; [destruct (get j (n_socks s)) as [k|]; [|discriminate H]|]; injection H as <- <-; (split; [|apply Q; try discriminate]); [|intros x X; injection X as <- ->; exact (O n F)|split; assumption].
    split; [exact C|]. intros x. cbn [n_map]. rewrite find_erase. destruct (n =? x); [discriminate|apply O].
  - injection H as <- <-. split; [split; assumption|]. apply Q; [|discriminate]. intros x y X. injection X as <- _ X. exact (O n X).
  - destruct (get j (n_socks s)) as [k|]; [|discriminate H]. destruct (sk_ph k); try discriminate H; destruct ok; injection H as <- <-; (split; [split; assumption|apply Q; discriminate]).
  - destruct (get j (n_socks s)) as [k|]; [|discriminate H]. destruct (sk_ph k); try discriminate H; injection H as <- <-. split; [split; assumption|]. intros n. split; [intros m []|intros []].
  - destruct (get j (n_socks s)) as [k|]; [|discriminate H]. destruct (sk_ph k); try discriminate H; injection H as <- <-; (split; [|apply Q; discriminate]);
      (split; [exact C|]; intros x; cbn [n_map]; rewrite find_erase; destruct (_ =? x); [discriminate|apply O]).
Qed.
Lemma out_run i l : forall s s' t, out i s -> nrun s l = Some (s', t) -> quiet i t.
Proof.
  induction l as [|a l IH]; intros s s' t O R; cbn [nrun] in R; [injection R as <- <-; intros n; split; [intros m []|intros []]|].
  destruct (nstep s a) as [[s1 t1]|] eqn:E; [|discriminate R]. destruct (nrun s1 l) as [[s2 t2]|] eqn:E2; [|discriminate R]. injection R as <- <-.
  destruct (out_step _ _ _ _ _ O E) as [O1 Q1]. assert (Q2 := IH _ _ _ O1 E2). intros n. destruct (Q1 n) as [X1 X2], (Q2 n) as [Y1 Y2].
  split; [intros m Z|intros Z]; apply in_app_or in Z as [Z|Z]; [exact (X1 m Z)|exact (Y1 m Z)|exact (X2 Z)|exact (Y2 Z)].
Qed.
(** The new link is up, was not deleted, is not over, and whatever happens afterwards no call sends through it or shuts it down. *)
Theorem C142_lost_refuted : exists l s t i, nrun n0 l = Some (s, t) /\ connects t /\ link_of nm t = Some i /\ In (VUp i) t /\ find nm (n_map s) = None /\
  (forall l' s' t' n, nrun s l' = Some (s', t') -> (forall m, ~ In (VSend n m (Some i)) t') /\ ~ In (VDel n (Some i)) t').
Proof.
  exists ex_quick. do 2 eexists. exists 2. split; [vm_compute; reflexivity|]. split; [|split; [reflexivity|split; [cbn; tauto|split; [reflexivity|]]]].
  - intros a i b E. repeat (destruct a as [|? a]; [cbn in E; try discriminate E; injection E as <- _|cbn in E; injection E as <- E]); [left; cbn; tauto|destruct a; discriminate E].
  - intros l' s' t' n R. refine (out_run 2 l' _ s' t' _ R n). split; [cbn; lia|]. intros x. cbn. discriminate.
Qed.
Print Assumptions C142_lost_refuted.
(** The connection cannot be made: the name stays taken, messages are accepted for a link that is over, and a new one is refused. *)
Theorem C142_fail_refuted : exists l s t, nrun n0 l = Some (s, t) /\ patient t /\ In (VSend nm [Byte.x07] (Some 1)) t /\ In (VAdd nm None) t /\ In (VOver 1) t /\ ~ answers t.
Proof.
  exists [NAdd nm true; NConn 1 false; NSend nm [Byte.x07]; NAdd nm true]. do 2 eexists. split; [vm_compute; reflexivity|]. split; [|split; [cbn; tauto|split; [cbn; tauto|split; [cbn; tauto|]]]].
  - intros a n i b E. repeat (destruct a as [|? a]; [cbn in E; try discriminate E; injection E as <- <- _; reflexivity|cbn in E; injection E as <- E]). destruct a; discriminate E.
  - intros A. specialize (A [VAdd nm (Some 1); VOver 1] (VSend nm [Byte.x07] (Some 1)) [VAdd nm None] eq_refl). discriminate A.
Qed.
Print Assumptions C142_fail_refuted.
Theorem C142_statement_refuted : ~ C142_statement.
Proof. intros H. destruct C142_fail_refuted as (l & s & t & R & _ & _ & _ & _ & N). exact (N (H l s t R)). Qed.
Print Assumptions C142_statement_refuted.

(** two names; one is deleted while connecting, its connection is made nevertheless; it is added again after that link is over *)
Definition ex_names : list nact := [NAdd 1 true; NAdd 2 true; NAdd 1 true; NConn 2 true; NDel 1; NSend 1 [Byte.x01]; NSend 2 [Byte.x02]; NConn 1 true; NErr 1; NAdd 1 false; NAdd 1 true;
  NConn 4 true; NSend 1 [Byte.x03]; NBreak 2; NSend 2 [Byte.x04]; NErr 2; NSend 2 [Byte.x05]; NDel 2; NAdd 2 true].
Example C142_example : exists s t, nrun n0 ex_names = Some (s, t) /\ patient t /\ connects t /\ In (VSend 1 [Byte.x01] None) t /\ In (VSend 1 [Byte.x03] (Some 4)) t /\ In (VSend 2 [Byte.x04] (Some 2)) t /\
  In (VSend 2 [Byte.x05] None) t /\ In (VAdd 2 (Some 5)) t.
Proof.
  do 2 eexists. split; [vm_compute; reflexivity|]. split; [|split; [|cbn; tauto]].
  - intros a n i b E. repeat (destruct a as [|? a]; [cbn in E; try discriminate E; injection E as <- <- _; reflexivity|cbn in E; injection E as <- E]). destruct a; discriminate E.
  - intros a i b E. repeat (destruct a as [|? a]; [cbn in E; try discriminate E; injection E as <- _; left; cbn; tauto|cbn in E; injection E as <- E]). destruct a; discriminate E.
Qed.
Example C142_own_example : exists s t, nrun n0 (ex_quick ++ [NSend nm [Byte.x07]; NAdd nm true; NSend nm [Byte.x08]]) = Some (s, t) /\ In (VSend nm [Byte.x07] None) t /\ In (VSend nm [Byte.x08] (Some 3)) t /\
  live nm t = [3; 2].
Proof. do 2 eexists. split; [vm_compute; reflexivity|]. vm_compute. tauto. Qed.
