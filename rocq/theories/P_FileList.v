From Coq Require Import List ZArith Lia Bool Arith.
From Verif Require Import M_File M_FileList S_FileList.
Import ListNotations.
Local Open Scope Z_scope.

(** ** C154: the files are transferred one after the other *)
(** commands of the user, and what the rest of the world does *)
Definition no_command (a : mact) : Prop := match a with AGive _ _ => False | _ => True end.
(** whatever happens without a further command, the file can still be begun *)
Definition hope (c : lcfg) (s : mst) : Prop := forall l s' t', Forall no_command l -> run c s l = Some (s', t') ->
  exists l2 s2 t2, Forall no_command l2 /\ run c s' l2 = Some (s2, t2) /\ m_q s2 = [].
Definition C154_statement : Prop := forall c l s t, run c (m0 c) l = Some (s, t) ->
  one_at_a_time t /\ given t = begun t ++ m_q s /\ failed_ok (opens c) (num c) t /\ hope c s.

(** two links, files of 10 bytes which everybody can open *)
Definition two : lcfg := mk_lc 2 (fun _ => Some 10%N) (fun _ => Some 4%N) (fun _ _ _ => true).
(** link 0 has not cleaned up when the end of file 1 is reported and the user asks for file 2: it fails at once, although the
    other link has begun it *)
Definition too_early : list mact :=
  [AGive false [1%nat]; AAnswer 0 true; AAnswer 1 true; ABytes 1 5; AEnd 1; ABytes 0 5; ATick; AGive false [2%nat]].
Theorem C154_window_refuted : exists s t, run two (m0 two) too_early = Some (s, t) /\ ~ one_at_a_time t /\ ~ failed_ok (opens two) 2 t /\
  t = [EGive false 1; EBegin false 1; EAsk 0 1; EAsk 1 1; EBytes 1 1 5; EOver 1; EBytes 0 1 5; EPct 100; EEnd;
       EGive false 2; EBegin false 2; EAsk 1 2; EFailed false 2].
Proof.
  do 2 eexists. split; [vm_compute; reflexivity|]. split; [|split; [|reflexivity]].
  - intro H. apply H. vm_compute. reflexivity.
  - intro H. destruct (H false 2%nat) as (i & _ & O); [|discriminate O]. vm_compute. tauto.
Qed.
Print Assumptions C154_window_refuted.

(** link 1 cannot open file 1: link 0 has begun it nevertheless, so that file 2 fails as well, which everybody can open *)
Definition one_not : lcfg := mk_lc 2 (fun _ => Some 10%N) (fun _ => Some 4%N) (fun _ i f => negb ((i =? 1)%nat && (f =? 1)%nat)).
Theorem C154_open_refuted : exists s t, run one_not (m0 one_not) [AGive false [1%nat; 2%nat]] = Some (s, t) /\
  ~ one_at_a_time t /\ ~ failed_ok (opens one_not) 2 t /\
  t = [EGive false 1; EGive false 2; EBegin false 1; EAsk 0 1; EFailed false 1; EBegin false 2; EAsk 1 2; EFailed false 2].
Proof.
  do 2 eexists. split; [vm_compute; reflexivity|]. split; [|split; [|reflexivity]].
  - intro H. apply H. vm_compute. reflexivity.
  - intro H. destruct (H false 2%nat) as (i & _ & O); [vm_compute; tauto|]. cbn in O. rewrite andb_false_r in O. discriminate O.
Qed.
Print Assumptions C154_open_refuted.

(** a link goes down in the middle of a file and is connected again: the client waits for ever, file 2 is not begun *)
Definition torn : list mact := [AGive false [1%nat; 2%nat]; AAnswer 0 true; AAnswer 1 true; ABytes 0 5; AEnd 0; ABytes 1 3; ADown 1].
Definition hung (s : mst) : Prop := exists p, s = mk_m [(false, 2%nat)] 10 8 p [LIdle; LStuck true] true 0.
Lemma hung_step : forall s a s' e, hung s -> no_command a -> step two s a = Some (s', e) -> hung s'.
Proof.
  intros s a s' e (p & ->) N H. destruct a; cbn [step m_on m_links m_wait] in H; try contradiction; try discriminate H.
  - unfold tick in H. cbn [m_size m_sent m_last] in H. change (10 <? 0) with false in H. change (0 <? 10) with true in H. cbn [andb] in H.
    destruct (negb _); cbn in H; injection H as <- <-; [exists (Some 80) | exists p]; reflexivity.
  - destruct i as [|[|[]]]; discriminate H.
  - destruct i as [|[|[]]]; discriminate H.
  - destruct i as [|[|[]]]; discriminate H.
  - destruct i as [|[|[]]]; discriminate H.
  - destruct i as [|[|[]]]; cbn in H; try discriminate H; injection H as <- <-; exists p; reflexivity.
Qed.
Lemma hung_run : forall l s s' t, hung s -> Forall no_command l -> run two s l = Some (s', t) -> hung s'.
Proof.
  induction l as [|a l IH]; intros s s' t K N R; cbn [run] in R; [injection R as <- <-; exact K|].
  destruct (step two s a) as [[s1 e1]|] eqn:D; [|discriminate]. destruct (run two s1 l) as [[s2 e2]|] eqn:R2; [|discriminate].
  injection R as <- <-. inversion N; subst. exact (IH _ _ _ (hung_step _ _ _ _ K H1 D) H2 R2).
Qed.
Theorem C154_down_refuted : exists s t, run two (m0 two) torn = Some (s, t) /\ m_q s = [(false, 2%nat)] /\ ~ hope two s /\
  forall l s' t', Forall no_command l -> run two s l = Some (s', t') -> m_q s' = [(false, 2%nat)].
Proof.
  do 2 eexists. split; [vm_compute; reflexivity|]. split; [reflexivity|].
  assert (G : forall l s' t', Forall no_command l -> run two (mk_m [(false, 2%nat)] 10 8 None [LIdle; LStuck true] true 0) l = Some (s', t') -> m_q s' = [(false, 2%nat)]).
  { intros l s' t' N R. assert (K : hung (mk_m [(false, 2%nat)] 10 8 None [LIdle; LStuck true] true 0)) by (exists None; reflexivity).
    destruct (hung_run l _ _ _ K N R) as (p & ->). reflexivity. }
  split; [|exact G]. intro H. destruct (H [] _ _ (Forall_nil _) eq_refl) as (l2 & s2 & t2 & N & R & Q). rewrite (G _ _ _ N R) in Q. discriminate Q.
Qed.
Print Assumptions C154_down_refuted.
(** the same if the link goes down while it waits for the answer of the server: nobody asks again *)
Definition unanswered : list mact := [AGive false [1%nat; 2%nat]; AAnswer 0 true; ABytes 0 5; AEnd 0; ADown 1].
Definition hung2 (s : mst) : Prop := exists p, s = mk_m [(false, 2%nat)] 10 5 p [LIdle; LStuck false] true 0.
Lemma hung2_step : forall s a s' e, hung2 s -> no_command a -> step two s a = Some (s', e) -> hung2 s'.
Proof.
  intros s a s' e (p & ->) N H. destruct a; cbn [step m_on m_links m_wait] in H; try contradiction; try discriminate H.
  - unfold tick in H. cbn [m_size m_sent m_last] in H. change (10 <? 0) with false in H. change (0 <? 10) with true in H. cbn [andb] in H.
    destruct (negb _); cbn in H; injection H as <- <-; [exists (Some 50) | exists p]; reflexivity.
  - destruct i as [|[|[]]]; discriminate H.
  - destruct i as [|[|[]]]; discriminate H.
  - destruct i as [|[|[]]]; discriminate H.
  - destruct i as [|[|[]]]; discriminate H.
  - destruct i as [|[|[]]]; cbn in H; try discriminate H; injection H as <- <-; exists p; reflexivity.
Qed.
Lemma hung2_run : forall l s s' t, hung2 s -> Forall no_command l -> run two s l = Some (s', t) -> hung2 s'.
Proof.
  induction l as [|a l IH]; intros s s' t K N R; cbn [run] in R; [injection R as <- <-; exact K|].
  destruct (step two s a) as [[s1 e1]|] eqn:D; [|discriminate]. destruct (run two s1 l) as [[s2 e2]|] eqn:R2; [|discriminate].
  injection R as <- <-. inversion N; subst. exact (IH _ _ _ (hung2_step _ _ _ _ K H1 D) H2 R2).
Qed.
Theorem C154_unanswered_refuted : exists s t, run two (m0 two) unanswered = Some (s, t) /\ m_q s = [(false, 2%nat)] /\
  forall l s' t', Forall no_command l -> run two s l = Some (s', t') -> m_q s' = [(false, 2%nat)].
Proof.
  do 2 eexists. split; [vm_compute; reflexivity|]. split; [reflexivity|].
  intros l s' t' N R. assert (K : hung2 (mk_m [(false, 2%nat)] 10 5 None [LIdle; LStuck false] true 0)) by (exists None; reflexivity).
  destruct (hung2_run l _ _ _ K N R) as (p & ->). reflexivity.
Qed.
Print Assumptions C154_unanswered_refuted.
Theorem C154_statement_refuted : ~ C154_statement.
Proof. intro C. destruct C154_window_refuted as (s & t & R & X & _). apply X. exact (proj1 (C two _ s t R)). Qed.
Print Assumptions C154_statement_refuted.

(** the user gives no command between the report of the end and the next beginning, and no link goes down while it works *)
Definition calm_act (s : mst) (a : mact) : Prop :=
  match a with
  | AGive _ _ => m_wait s = 0%nat
  | ADown i => nth_error (m_links s) i = Some LIdle
  | _ => True
  end.
Fixpoint calm (c : lcfg) (s : mst) (l : list mact) : Prop :=
  match l with
  | [] => True
  | a :: l' => calm_act s a /\ match step c s a with Some (s1, _) => calm c s1 l' | None => True end
  end.
(** a file to get can be created and opened by all links or by none *)
Definition together (c : lcfg) : Prop := forall f i j, (i < num c)%nat -> (j < num c)%nat -> opens c false i f = opens c false j f.
Definition len (c : lcfg) (p : bool) (f : nat) : option N := if p then loc c f else srv c f.
Definition lenz (c : lcfg) (p : bool) (f : nat) : Z := match len c p f with Some n => Z.of_N n | None => 0 end.

(** *** shares *)
Fixpoint ssum (c : lcfg) (n : N) (i k : nat) : Z := match k with O => 0 | S k => share c n i + ssum c n (S i) k end.
Lemma share_not_last : forall c n i, (S i < num c)%nat -> share c n i = Z.of_N n / Z.of_nat (num c).
Proof. intros c n i H. unfold share, slice. cbn [snd]. destruct (Z.eqb_spec (Z.of_nat (num c) - 1) (Z.of_nat i)); [lia|]. apply Z.quot_div_nonneg; lia. Qed.
Lemma share_last : forall c n i, S i = num c -> share c n i = Z.of_N n - Z.of_N n / Z.of_nat (num c) * Z.of_nat i.
Proof.
  intros c n i H. unfold share, slice. cbn [snd]. destruct (Z.eqb_spec (Z.of_nat (num c) - 1) (Z.of_nat i)); [|lia].
  rewrite Z.quot_div_nonneg by lia. reflexivity.
Qed.
Lemma share_pos : forall c n i, (i < num c)%nat -> 0 <= share c n i.
Proof.
  intros c n i H. destruct (Nat.eq_dec (S i) (num c)) as [E|E].
  - rewrite (share_last c n i E). pose proof (Z.mul_div_le (Z.of_N n) (Z.of_nat (num c)) ltac:(lia)).
    pose proof (Z.div_pos (Z.of_N n) (Z.of_nat (num c)) ltac:(lia) ltac:(lia)). nia.
  - rewrite (share_not_last c n i) by lia. apply Z.div_pos; lia.
Qed.
Lemma ssum_all : forall c n k i, (i + k = num c)%nat -> (0 < k)%nat -> ssum c n i k = Z.of_N n - Z.of_N n / Z.of_nat (num c) * Z.of_nat i.
Proof.
  intros c n. induction k as [|k IH]; intros i E P; [lia|]. cbn [ssum]. destruct k as [|k].
  - cbn [ssum]. rewrite (share_last c n i) by lia. lia.
  - rewrite (share_not_last c n i) by lia. rewrite (IH (S i)) by lia. nia.
Qed.
Lemma ssum_le : forall c n, ssum c n 0 (num c) <= Z.of_N n.
Proof. intros c n. destruct (num c) as [|m] eqn:E; [cbn; lia|]. rewrite <- E, (ssum_all c n (num c) 0) by lia. lia. Qed.

(** *** lists of links *)
Lemma put_at_len : forall i x l, (i < length l)%nat -> length (put_at i x l) = length l.
Proof. intros i x l H. unfold put_at. rewrite app_length. cbn [length]. rewrite firstn_length, skipn_length. lia. Qed.
Lemma nth_put : forall i x l j, (i < length l)%nat -> nth_error (put_at i x l) j = if (j =? i)%nat then Some x else nth_error l j.
Proof.
  induction i as [|i IH]; intros x [|y l] j H; cbn [length] in H; try lia.
  - destruct j; reflexivity.
  - destruct j as [|j]; [reflexivity|]. change (put_at (S i) x (y :: l)) with (y :: put_at i x l). cbn [nth_error]. rewrite IH by lia. reflexivity.
Qed.
Definition pend (c : lcfg) (i : nat) (l : lk) : Z :=
  match l with
  | LPrep (JGet f) => match srv c f with Some n => share c n i | None => 0 end
  | LPrep (JPut f) => match loc c f with Some n => share c n i | None => 0 end
  | LBusy _ n => n
  | _ => 0
  end.
Fixpoint psum (c : lcfg) (i : nat) (ls : list lk) : Z := match ls with [] => 0 | l :: r => pend c i l + psum c (S i) r end.
Lemma psum_put : forall c i x ls k l, nth_error ls i = Some l -> psum c k (put_at i x ls) = psum c k ls - pend c (k + i) l + pend c (k + i) x.
Proof.
  intros c. induction i as [|i IH]; intros x [|y ls] k l H; cbn [nth_error] in H; try discriminate H.
  - injection H as ->. cbn. rewrite Nat.add_0_r. lia.
  - change (put_at (S i) x (y :: ls)) with (y :: put_at i x ls). cbn [psum]. rewrite (IH x ls (S k) l H). rewrite Nat.add_succ_r. cbn [Nat.add]. lia.
Qed.
Lemma psum_idle : forall c n i, psum c i (repeat LIdle n) = 0.
Proof. intros c. induction n as [|n IH]; intros i; cbn [repeat psum pend]; [reflexivity|]. rewrite IH. reflexivity. Qed.
Lemma all_idle : forall ls, forallb idle ls = true <-> ls = repeat LIdle (length ls).
Proof.
  induction ls as [|l ls IH]; cbn; [tauto|]. rewrite andb_true_iff, IH. split.
  - intros [A B]. destruct l; try discriminate A. rewrite <- B. reflexivity.
  - intros E. injection E as -> E. split; [reflexivity | exact E].
Qed.
Lemma nth_repeat_idle : forall n i l, nth_error (repeat LIdle n) i = Some l -> l = LIdle.
Proof. intros n i l H. apply nth_error_In, repeat_spec in H. exact H. Qed.

(** what a link may be doing; [h]: the current file and its bytes so far *)
Definition fit (c : lcfg) (h : option (bool * nat * Z)) (i : nat) (l : lk) : Prop :=
  match l with
  | LIdle => True
  | LPrep (JGet f) => exists a, h = Some (false, f, a)
  | LPrep (JTrunc f) => i = 0%nat /\ h = Some (true, f, 0)
  | LPrep (JPut f) => exists a, h = Some (true, f, a)
  | LBusy (JGet f) n => 0 <= n /\ exists a, h = Some (false, f, a)
  | LBusy (JPut f) n => 0 <= n /\ exists a, h = Some (true, f, a)
  | LBusy (JTrunc _) _ | LStuck _ => False
  end.
Record good (c : lcfg) (s : mst) (o : list nat) (h : option (bool * nat * Z)) : Prop := {
  g_len : length (m_links s) = num c;
  g_open : forall i, In i o <-> exists l, nth_error (m_links s) i = Some l /\ idle l = false;
  g_fit : forall i l, nth_error (m_links s) i = Some l -> fit c h i l;
  g_rest : m_on s = false -> m_wait s = 0%nat -> m_q s = [] /\ m_links s = repeat LIdle (num c);
  g_wait : m_wait s = 0%nat \/ (m_wait s = 1%nat /\ m_on s = false);
  g_act : m_on s = true \/ m_wait s = 1%nat -> exists k f, h = Some (k, f, m_sent s) /\ 0 <= m_sent s /\
    (m_size s = -1 \/ (len c k f <> None /\ m_size s = lenz c k f)) /\ m_sent s + psum c 0 (m_links s) <= lenz c k f;
  g_trunc : forall f, nth_error (m_links s) 0 = Some (LPrep (JTrunc f)) -> m_size s = -1 /\ forall i l, nth_error (m_links s) (S i) = Some l -> l = LIdle
}.
Lemma pend_pos : forall c h i l, (i < num c)%nat -> fit c h i l -> 0 <= pend c i l.
Proof.
  intros c h i [|[f|f|f]|[f|f|f] n|r] L F; cbn in *; try lia; try tauto.
  - destruct (srv c f); [apply share_pos; exact L | lia].
  - destruct (loc c f); [apply share_pos; exact L | lia].
Qed.
Lemma psum_pos : forall c h ls k, (k + length ls <= num c)%nat -> (forall i l, nth_error ls i = Some l -> fit c h (k + i) l) -> 0 <= psum c k ls.
Proof.
  intros c h. induction ls as [|l ls IH]; intros k L F; cbn [psum]; [lia|]. cbn [length] in L.
  pose proof (F 0%nat l eq_refl) as F0. rewrite Nat.add_0_r in F0. pose proof (pend_pos c h k l ltac:(lia) F0).
  assert (0 <= psum c (S k) ls); [|lia]. apply IH; [lia|]. intros i x N. replace (S k + i)%nat with (k + S i)%nat by lia. exact (F (S i) x N).
Qed.

(** *** beginning a file *)
Lemma ask_yes : forall c f n i, (forall j, (i <= j < i + n)%nat -> opens c false j f = true) ->
  ask_get c f i (repeat LIdle n) = (repeat (LPrep (JGet f)) n, true, map (fun j => EAsk j f) (seq i n)).
Proof.
  intros c f. induction n as [|n IH]; intros i H; [reflexivity|]. cbn [repeat ask_get seq map]. rewrite IH by (intros j J; apply H; lia).
  cbn [idle andb]. rewrite H by lia. reflexivity.
Qed.
Lemma ask_no : forall c f n i, (forall j, (i <= j < i + n)%nat -> opens c false j f = false) -> (0 < n)%nat ->
  ask_get c f i (repeat LIdle n) = (repeat LIdle n, false, []).
Proof.
  intros c f. induction n as [|n IH]; intros i H P; [lia|]. cbn [repeat ask_get]. destruct n as [|n].
  - cbn. rewrite H by lia. reflexivity.
  - rewrite (IH (S i)) by (try lia; intros j J; apply H; lia). cbn [idle andb]. rewrite H by lia. reflexivity.
Qed.
Lemma one_asks : forall f n i o, exists o', fold_left one_ev (map (fun j => EAsk j f) (seq i n)) (Some o) = Some o' /\
  forall j, In j o' <-> In j o \/ (i <= j < i + n)%nat.
Proof.
  intros f. induction n as [|n IH]; intros i o; cbn [seq map fold_left].
  - exists o. split; [reflexivity|]. intros j. split; [left; assumption | intros [H | H]; [exact H | lia]].
  - cbn [one_ev]. destruct (IH (S i) (i :: o)) as (o' & F & M). exists o'. split; [exact F|]. intros j. rewrite M. cbn [In].
    split; [intros [[-> | H] | H]; [right; lia | left; exact H | right; lia] | intros [H | H]; [left; right; exact H|]].
    destruct (Nat.eq_dec i j) as [E|E]; [left; left; exact E | right; lia].
Qed.
Lemma told_asks : forall g f l h, fold_left (told_ev g) (map (fun j => EAsk j f) l) (Some h) = Some h.
Proof. intros g f. induction l as [|x l IH]; intros h; cbn; [reflexivity | apply IH]. Qed.
Lemma asks_none : forall f l, given (map (fun j => EAsk j f) l) = [] /\ begun (map (fun j => EAsk j f) l) = [] /\ forall p g, ~ In (EFailed p g) (map (fun j => EAsk j f) l).
Proof.
  intros f. induction l as [|x l IH]; cbn; [repeat split; auto|]. destruct IH as (A & B & C). repeat split; auto.
  intros p g [H | H]; [discriminate H | exact (C p g H)].
Qed.
Lemma psum_get : forall c f n i, psum c i (repeat (LPrep (JGet f)) n) = match srv c f with Some m => ssum c m i n | None => 0 end.
Proof. intros c f. induction n as [|n IH]; intros i; cbn [repeat psum ssum pend]; [destruct (srv c f); reflexivity|]. rewrite IH. destruct (srv c f); reflexivity. Qed.
Lemma given_app : forall a b, given (a ++ b) = given a ++ given b. Proof. intros. apply flat_map_app. Qed.
Lemma begun_app : forall a b, begun (a ++ b) = begun a ++ begun b. Proof. intros. apply flat_map_app. Qed.
Lemma told_begin : forall g h p f, told_ev g (Some h) (EBegin p f) = Some (Some (p, f, 0)).
Proof. reflexivity. Qed.
Lemma told_failed : forall g h p f, told_ev g (Some h) (EFailed p f) = Some h.
Proof. reflexivity. Qed.

Lemma good_asked : forall c q f o', (forall j, In j o' <-> In j [] \/ (0 <= j < 0 + num c)%nat) ->
  good c (mk_m q (-1) 0 None (repeat (LPrep (JGet f)) (num c)) true 0) o' (Some (false, f, 0)).
Proof.
  intros c q f o' M. constructor; cbn [m_links m_on m_wait m_q m_size m_sent].
  - apply repeat_length.
  - intros i. rewrite M. split.
    + intros [[] | L]. exists (LPrep (JGet f)). split; [|reflexivity]. rewrite nth_error_repeat by lia. reflexivity.
    + intros (l & N & _). right. split; [lia|]. pose proof (nth_error_Some (repeat (LPrep (JGet f)) (num c)) i) as X. rewrite N, repeat_length in X. apply X. discriminate.
  - intros i l N. apply nth_error_In, repeat_spec in N. subst l. cbn. eexists. reflexivity.
  - discriminate.
  - left. reflexivity.
  - intros _. exists false, f. split; [reflexivity|]. split; [lia|]. split; [left; reflexivity|]. rewrite psum_get. unfold lenz, len.
    destruct (srv c f) as [m|]; [pose proof (ssum_le c m); lia | lia].
  - intros g N. apply nth_error_In, repeat_spec in N. discriminate N.
Qed.
Lemma good_trunc : forall c q f n, num c = S n -> good c (mk_m q (-1) 0 None (LPrep (JTrunc f) :: repeat LIdle n) true 0) [0%nat] (Some (true, f, 0)).
Proof.
  intros c q f n E. constructor; cbn [m_links m_on m_wait m_q m_size m_sent].
  - cbn. rewrite repeat_length. symmetry. exact E.
  - intros [|i]; cbn [nth_error In].
    + split; [intros _; eexists; split; reflexivity | intros _; left; reflexivity].
    + split; [intros [H | []]; lia | intros (l & N & I)]. apply nth_repeat_idle in N. subst l. discriminate I.
  - intros [|i] l N; cbn [nth_error] in N; [injection N as <-; cbn; auto | apply nth_repeat_idle in N; subst l; exact I].
  - discriminate.
  - left. reflexivity.
  - intros _. exists true, f. split; [reflexivity|]. split; [lia|]. split; [left; reflexivity|]. cbn [psum pend]. rewrite psum_idle. unfold lenz. destruct (len c true f); lia.
  - intros g N. split; [reflexivity|]. intros i l M. cbn [nth_error] in M. exact (nth_repeat_idle _ _ _ M).
Qed.
Lemma good_none : forall c s h, m_links s = repeat LIdle (num c) -> m_q s = [] -> m_on s = false -> m_wait s = 0%nat -> good c s [] h.
Proof.
  intros c s h L Q O W. constructor.
  - rewrite L. apply repeat_length.
  - intros i. split; [intros [] | intros (l & N & I)]. rewrite L in N. apply nth_repeat_idle in N. subst l. discriminate I.
  - intros i l N. rewrite L in N. apply nth_repeat_idle in N. subst l. exact I.
  - intros _ _. split; assumption.
  - left. exact W.
  - intros [H | H]; congruence.
  - intros f N. rewrite L in N. apply nth_repeat_idle in N. discriminate N.
Qed.
Lemma work_good : forall c, together c -> forall q s h s1 e, m_links s = repeat LIdle (num c) -> m_on s = false -> m_wait s = 0%nat -> work c q s = (s1, e) ->
  exists o' h', fold_left one_ev e (Some []) = Some o' /\ fold_left (told_ev (len c)) e (Some h) = Some h' /\ good c s1 o' h' /\
    failed_ok (opens c) (num c) e /\ q = begun e ++ m_q s1 /\ given e = [].
Proof.
  intros c T. induction q as [|[p f] q IH]; intros s h s1 e L O W H; cbn [work] in H.
  - injection H as <- <-. exists [], h. split; [reflexivity|]. split; [reflexivity|]. split; [apply good_none; unfold set_q; cbn; auto|]. split; [intros p f []|]. split; reflexivity.
  - rewrite L, O, W in H. destruct p.
    + destruct (num c) as [|n] eqn:E; cbn [repeat ask_trunc idle] in H; injection H as <- <-.
      * exists [], (Some (true, f, 0)). cbn [fold_left]. rewrite told_begin. split; [reflexivity|]. split; [reflexivity|]. split.
        -- constructor; cbn; try rewrite E; try reflexivity; try discriminate; auto.
           ++ intros i. split; [intros [] | intros (l & N & _)]. destruct i; discriminate N.
           ++ intros i l N. destruct i; discriminate N.
           ++ intros _. exists true, f. split; [reflexivity|]. split; [lia|]. split; [left; reflexivity|]. unfold lenz. destruct (len c true f); lia.
        -- split; [intros p g [X | []]; discriminate X|]. split; reflexivity.
      * exists [0%nat], (Some (true, f, 0)). cbn [fold_left]. rewrite told_begin. split; [reflexivity|]. split; [reflexivity|]. split; [apply good_trunc; exact E|].
        split; [intros p g [X | [X | []]]; discriminate X|]. split; reflexivity.
    + assert (D : (forall j, (0 <= j < 0 + num c)%nat -> opens c false j f = true) \/ ((forall j, (0 <= j < 0 + num c)%nat -> opens c false j f = false) /\ (0 < num c)%nat)).
      { destruct (num c) as [|n] eqn:E; [left; lia|]. destruct (opens c false 0 f) eqn:X.
        - left. intros j J. rewrite (T f j 0%nat) by lia. exact X.
        - right. split; [|lia]. intros j J. rewrite (T f j 0%nat) by lia. exact X. }
      destruct D as [D | [D P]].
      * rewrite (ask_yes c f (num c) 0 D) in H. injection H as <- <-. destruct (one_asks f (num c) 0 []) as (o' & F & M).
        exists o', (Some (false, f, 0)). cbn [fold_left]. rewrite told_begin. split; [exact F|]. split; [apply told_asks|].
        split; [apply good_asked; exact M|]. destruct (asks_none f (seq 0 (num c))) as (A & B & C).
        split; [intros p g [X | X]; [discriminate X | destruct (C p g X)]|]. cbn [begun flat_map begun_ev app m_q] in *. unfold begun, given in *. cbn [flat_map begun_ev given_ev app]. rewrite A, B. split; reflexivity.
      * rewrite (ask_no c f (num c) 0 D P) in H.
        destruct (work c q (mk_m q (-1) 0 (m_last s) (repeat LIdle (num c)) false 0)) as [s2 e2] eqn:E. injection H as <- <-.
        destruct (IH (mk_m q (-1) 0 (m_last s) (repeat LIdle (num c)) false 0) (Some (false, f, 0)) s2 e2 eq_refl eq_refl eq_refl E) as (o' & h' & F1 & F2 & G & X & Q & V).
        exists o', h'. cbn [app fold_left one_ev]. rewrite told_begin, told_failed. split; [exact F1|]. split; [exact F2|]. split; [exact G|]. split.
        -- intros p g [Y | [Y | Y]]; [discriminate Y | injection Y as <- <-; exists 0%nat; split; [exact P | apply D; lia] | exact (X p g Y)].
        -- unfold begun, given in *. cbn [flat_map begun_ev given_ev app]. rewrite <- Q, V. split; reflexivity.
Qed.

(** *** the links *)
Lemma busy_active : forall c s o h i l, good c s o h -> nth_error (m_links s) i = Some l -> idle l = false -> m_on s = true \/ m_wait s = 1%nat.
Proof.
  intros c s o h i l G N I. destruct (m_on s) eqn:O; [left; reflexivity|]. right. destruct (g_wait _ _ _ _ G) as [W | [W _]]; [|exact W].
  destruct (g_rest _ _ _ _ G O W) as [_ L]. rewrite L in N. apply nth_repeat_idle in N. subst l. discriminate I.
Qed.
Lemma good_set : forall c s o k f a a' i l x o' size', good c s o (Some (k, f, a)) -> nth_error (m_links s) i = Some l -> idle l = false ->
  fit c (Some (k, f, a')) i x -> (forall g, x <> LPrep (JTrunc g)) -> 0 <= a' -> a' + pend c i x <= a + pend c i l ->
  (size' = m_size s \/ (len c k f <> None /\ size' = lenz c k f)) ->
  (forall j, In j o' <-> (j <> i /\ In j o) \/ (j = i /\ idle x = false)) ->
  good c (mk_m (m_q s) size' a' (m_last s) (put_at i x (m_links s)) (m_on s) (m_wait s)) o' (Some (k, f, a')).
Proof.
  intros c s o k f a a' i l x o' size' G N I F T P S Z M.
  pose proof (busy_active _ _ _ _ _ _ G N I) as B.
  assert (LT : (i < length (m_links s))%nat) by (apply nth_error_Some; congruence).
  assert (NT : forall j g, j <> i -> nth_error (m_links s) j = Some (LPrep (JTrunc g)) -> False).
  { intros j g J X. pose proof (g_fit _ _ _ _ G j _ X) as Y. cbn in Y. destruct Y as [-> _]. destruct i as [|i]; [congruence|].
    destruct (g_trunc _ _ _ _ G g X) as [_ Y]. rewrite (Y i l N) in I. discriminate I. }
  constructor; cbn [m_links m_on m_wait m_q m_size m_sent].
  - rewrite put_at_len by exact LT. exact (g_len _ _ _ _ G).
  - intros j. rewrite M, nth_put by exact LT. destruct (Nat.eqb_spec j i) as [-> | J].
    + split; [intros [[X _] | [_ X]]; [congruence | exists x; split; [reflexivity | exact X]] | intros (y & E & X); injection E as ->; right; split; [reflexivity | exact X]].
    + rewrite <- (g_open _ _ _ _ G j). tauto.
  - intros j y. rewrite nth_put by exact LT. destruct (Nat.eqb_spec j i) as [-> | J]; intros E; [injection E as <-; exact F|].
    pose proof (g_fit _ _ _ _ G j y E) as X. destruct y as [|[g|g|g]|[g|g|g] m|r]; cbn in *; try exact X.
    + destruct X as (b & X). injection X as <- <- <-. exists a'. reflexivity.
    + destruct (NT j g J E).
    + destruct X as (b & X). injection X as <- <- <-. exists a'. reflexivity.
    + destruct X as (Y & b & X). injection X as <- <- <-. split; [exact Y | exists a'; reflexivity].
    + destruct X as (Y & b & X). injection X as <- <- <-. split; [exact Y | exists a'; reflexivity].
  - intros O W. destruct B; congruence.
  - exact (g_wait _ _ _ _ G).
  - intros _. destruct (g_act _ _ _ _ G B) as (k0 & f0 & E & A0 & SZ & SUM). injection E as <- <- EA. exists k, f. split; [reflexivity|]. split; [exact P|]. split.
    + destruct Z as [-> | Z]; [exact SZ | right; exact Z].
    + rewrite (psum_put c i x (m_links s) 0 l N). cbn [Nat.add]. lia.
  - intros g X. rewrite nth_put in X by exact LT. destruct (Nat.eqb_spec 0 i) as [<- | J]; [injection X as ->; destruct (T g eq_refl) | destruct (NT 0%nat g J X)].
Qed.
Lemma rm_iff : forall i o j x, idle x = true -> (In j (remove Nat.eq_dec i o) <-> (j <> i /\ In j o) \/ (j = i /\ idle x = false)).
Proof.
  intros i o j x X. rewrite X. split.
  - intros H. apply in_remove in H. left. tauto.
  - intros [[A B] | [_ H]]; [apply in_in_remove; assumption | discriminate H].
Qed.
Lemma keep_iff : forall c s o h i l x, good c s o h -> nth_error (m_links s) i = Some l -> idle l = false -> idle x = false ->
  forall j, In j o <-> (j <> i /\ In j o) \/ (j = i /\ idle x = false).
Proof.
  intros c s o h i l x G N I X j. split.
  - intros H. destruct (Nat.eq_dec j i) as [-> | J]; [right; auto | left; auto].
  - intros [[_ H] | [-> _]]; [exact H|]. apply (g_open _ _ _ _ G). exists l. auto.
Qed.
Lemma idle_set : forall c s o k f a i l, good c s o (Some (k, f, a)) -> nth_error (m_links s) i = Some l -> idle l = false ->
  good c (set_link s i LIdle) (remove Nat.eq_dec i o) (Some (k, f, a)).
Proof.
  intros c s o k f a i l G N I. pose proof (busy_active _ _ _ _ _ _ G N I) as B.
  destruct (g_act _ _ _ _ G B) as (k0 & f0 & E & A0 & _ & _). injection E as <- <- EA.
  assert (LT : (i < num c)%nat) by (rewrite <- (g_len _ _ _ _ G); apply nth_error_Some; congruence).
  pose proof (pend_pos c _ i l LT (g_fit _ _ _ _ G i l N)) as PP.
  assert (K := good_set c s o k f a a i l LIdle (remove Nat.eq_dec i o) (m_size s) G N I). cbn [fit pend] in K. unfold set_link, set_links. rewrite <- EA at 1.
  apply K; auto; try lia; try discriminate. intros j. apply rm_iff. reflexivity.
Qed.

(** put_file of all links *)
Lemma put_all_spec : forall c f a ls i, (i + length ls = num c)%nat -> (forall l, In l ls -> l = LIdle \/ exists g, l = LPrep (JTrunc g)) -> forall o,
  (forall j, In j o -> (j < i + length ls)%nat) ->
  let ls' := fst (put_all c f i ls) in let e := snd (put_all c f i ls) in
  length ls' = length ls /\ (forall j l, nth_error ls' j = Some l -> l = LIdle \/ (l = LPrep (JPut f) /\ fit c (Some (true, f, a)) (i + j) l)) /\
  psum c i ls' <= match loc c f with Some n => ssum c n i (length ls) | None => 0 end /\
  (exists o', fold_left one_ev e (Some o) = Some o' /\ (forall j, (j < i)%nat -> (In j o' <-> In j o)) /\
     (forall j, (i <= j)%nat -> (In j o' <-> exists l, nth_error ls' (j - i) = Some l /\ idle l = false))) /\
  (forall h, fold_left (told_ev (len c)) e (Some h) = Some h) /\ given e = [] /\ begun e = [] /\ forall p g, ~ In (EFailed p g) e.
Proof.
  intros c f a. induction ls as [|l ls IH]; intros i E A o B; cbn [put_all].
  - cbn. split; [reflexivity|]. split; [intros [|j] l H; discriminate H|]. split; [destruct (loc c f); lia|]. split.
    + exists o. split; [reflexivity|]. split; [tauto|]. intros j J. split; [intros H; pose proof (B j H); cbn in *; lia | intros (l & H & _); destruct (j - i)%nat; discriminate H].
    + repeat split; auto.
  - cbn [length] in E. set (r := put_one c f i l).
    assert (R : exists x ev, r = (x, [ev]) /\ ((x = LIdle /\ ev = EOver i) \/ (x = LPrep (JPut f) /\ ev = EAsk i f)) /\ pend c i x <= match loc c f with Some n => share c n i | None => 0 end).
    { unfold r, put_one. destruct (loc c f) as [n|] eqn:LC; [|do 2 eexists; split; [reflexivity|]; split; [left; auto | cbn; lia]].
      pose proof (share_pos c n i ltac:(lia)) as SP. destruct (opens c true i f && (0 <? share c n i)).
      - destruct (A l (or_introl eq_refl)) as [-> | (g & ->)]; (do 2 eexists; split; [reflexivity|]; split; [right; auto | cbn [pend]; rewrite LC; lia]).
      - do 2 eexists. split; [reflexivity|]. split; [left; auto | exact SP]. }
    destruct R as (x & ev & -> & X & PX).
    destruct (put_all c f (S i) ls) as [ls1 e1] eqn:PA. cbn [fst snd app].
    set (o1 := match ev with EAsk _ _ => i :: o | _ => remove Nat.eq_dec i o end).
    assert (O1 : one_ev (Some o) ev = Some o1) by (destruct X as [[_ ->] | [_ ->]]; reflexivity).
    assert (M1 : forall j, j <> i -> (In j o1 <-> In j o)).
    { intros j J. unfold o1. destruct X as [[_ ->] | [_ ->]]; cbn.
      - split; [intros H; apply in_remove in H; tauto | intros H; apply in_in_remove; assumption].
      - split; [intros [H | H]; [congruence | exact H] | auto]. }
    assert (M2 : In i o1 <-> idle x = false).
    { unfold o1. destruct X as [[-> ->] | [-> ->]]; cbn; [split; [intros H; destruct (remove_In _ _ _ H) | discriminate] | tauto]. }
    assert (B1 : forall j, In j o1 -> (j < S i + length ls)%nat).
    { intros j H. destruct (Nat.eq_dec j i) as [-> | J]; [lia|]. apply M1 in H; [|exact J]. pose proof (B j H). cbn [length] in *. lia. }
    pose proof (IH (S i) ltac:(lia) (fun l' H => A l' (or_intror H)) o1 B1) as K. rewrite PA in K. cbn [fst snd] in K.
    destruct K as (K1 & K2 & K3 & (o' & F & N1 & N2) & T & V & W & Y). split; [cbn; rewrite K1; reflexivity|]. split.
    { intros [|j] y H; cbn [nth_error] in H.
      - injection H as <-. destruct X as [[-> _] | [-> _]]; [left; reflexivity | right; split; [reflexivity | cbn; eexists; reflexivity]].
      - replace (i + S j)%nat with (S i + j)%nat by lia. exact (K2 j y H). }
    split; [cbn [psum length ssum]; destruct (loc c f); lia|]. split.
    { exists o'. split; [cbn [fold_left]; rewrite O1; exact F|]. split.
      - intros j J. rewrite N1 by lia. apply M1. lia.
      - intros j J. destruct (Nat.eq_dec j i) as [-> | D].
        + rewrite N1 by lia. rewrite M2, Nat.sub_diag. cbn [nth_error]. split; [intros H; exists x; auto | intros (y & H & I); injection H as ->; exact I].
        + rewrite N2 by lia. replace (j - i)%nat with (S (j - S i)) by lia. reflexivity. }
    split; [intros h; cbn [fold_left]; destruct X as [[_ ->] | [_ ->]]; cbn [told_ev]; apply T|].
    unfold given, begun in *. cbn [flat_map]. rewrite V, W. split; [destruct X as [[_ ->] | [_ ->]]; reflexivity|]. split; [destruct X as [[_ ->] | [_ ->]]; reflexivity|].
    intros p g [H | H]; [destruct X as [[_ ->] | [_ ->]]; discriminate H | exact (Y p g H)].
Qed.

(** *** every step *)
Definition fine (c : lcfg) (s : mst) (o : list nat) (h : option (bool * nat * Z)) (s' : mst) (e : list mev) : Prop :=
  exists o' h', fold_left one_ev e (Some o) = Some o' /\ fold_left (told_ev (len c)) e (Some h) = Some h' /\ good c s' o' h' /\
    failed_ok (opens c) (num c) e /\ m_q s ++ given e = begun e ++ m_q s'.
Lemma good_last : forall c s o h x, good c s o h -> good c (set_last s x) o h.
Proof. intros c s o h x [A B C D E F G]. constructor; assumption. Qed.
Lemma good_open_nil : forall c s o h, good c s o h -> is_end s = true -> o = [] /\ m_links s = repeat LIdle (num c).
Proof.
  intros c s o h G E. apply all_idle in E. rewrite (g_len _ _ _ _ G) in E. split; [|exact E].
  destruct o as [|i o]; [reflexivity|]. destruct (proj1 (g_open _ _ _ _ G i) (or_introl eq_refl)) as (l & N & I).
  rewrite E in N. apply nth_repeat_idle in N. subst l. discriminate I.
Qed.
Lemma next_fine : forall c s o h, together c -> good c s o h -> is_end s = true -> forall s0, m_q s0 = m_q s -> m_links s0 = m_links s -> m_on s0 = false -> m_wait s0 = 0%nat ->
  fine c s o h (fst (transmit c s0)) (snd (transmit c s0)).
Proof.
  intros c s o h T G E s0 Q L O W. destruct (good_open_nil c s o h G E) as [-> I]. unfold transmit. rewrite O.
  destruct (work c (m_q s0) s0) as [s1 e1] eqn:D. cbn [fst snd]. rewrite <- L in I.
  destruct (work_good c T (m_q s0) s0 h s1 e1 I O W D) as (o' & h' & F1 & F2 & G1 & X & Q1 & V).
  exists o', h'. split; [exact F1|]. split; [exact F2|]. split; [exact G1|]. split; [exact X|]. rewrite V, app_nil_r, <- Q. exact Q1.
Qed.
Lemma fine_ev : forall c s o h s' e, fine c s o h s' e -> forall s0 ev, told_ev (len c) (Some h) ev = Some h -> one_ev (Some o) ev = Some o -> m_q s0 = m_q s ->
  given_ev ev = [] -> begun_ev ev = [] -> (forall p f, ev <> EFailed p f) -> fine c s0 o h s' (ev :: e).
Proof.
  intros c s o h s' e (o' & h' & A & B & C & D & E) s0 ev T O Q V W X. exists o', h'. cbn [fold_left]. rewrite T, O.
  split; [exact A|]. split; [exact B|]. split; [exact C|]. split.
  - intros p f [H | H]; [destruct (X p f H) | exact (D p f H)].
  - unfold given, begun in *. cbn [flat_map]. rewrite V, W, Q. exact E.
Qed.
Lemma fine_same : forall c s o h s', good c s' o h -> m_q s' = m_q s -> fine c s o h s' [].
Proof. intros c s o h s' G Q. exists o, h. split; [reflexivity|]. split; [reflexivity|]. split; [exact G|]. split; [intros p f []|]. cbn. rewrite app_nil_r, Q. reflexivity. Qed.
Lemma fine_over : forall c s o k f a i l, good c s o (Some (k, f, a)) -> nth_error (m_links s) i = Some l -> idle l = false ->
  fine c s o (Some (k, f, a)) (set_link s i LIdle) [EOver i].
Proof.
  intros c s o k f a i l G N I. exists (remove Nat.eq_dec i o), (Some (k, f, a)). split; [reflexivity|]. split; [reflexivity|].
  split; [exact (idle_set _ _ _ _ _ _ _ _ G N I)|]. split; [intros p g [H | []]; discriminate H|]. cbn. rewrite app_nil_r. reflexivity.
Qed.
Lemma tick_fine : forall c s o h, together c -> good c s o h -> m_on s = true -> fine c s o h (fst (tick c s)) (snd (tick c s)).
Proof.
  intros c s o h T G O. unfold tick.
  assert (W : m_wait s = 0%nat) by (destruct (g_wait _ _ _ _ G) as [W | [_ W]]; [exact W | congruence]).
  destruct (g_act _ _ _ _ G (or_introl O)) as (k & f & -> & A & SZ & SUM).
  pose proof (psum_pos c (Some (k, f, m_sent s)) (m_links s) 0 ltac:(rewrite (g_len _ _ _ _ G); lia) (g_fit _ _ _ _ G)) as PP.
  destruct (Z.ltb_spec (m_size s) 0) as [SN | SN].
  - destruct (is_end s) eqn:E; [|apply fine_same; [exact G | reflexivity]].
    apply (next_fine c s); auto.
  - destruct SZ as [SZ | [LN SZ]]; [lia|]. unfold lenz in SZ, SUM. destruct (len c k f) as [n|] eqn:LE; [|congruence]. clear LN.
    set (p := m_sent s * 100 / m_size s).
    assert (TP : 0 < m_size s -> told_ev (len c) (Some (Some (k, f, m_sent s))) (EPct p) = Some (Some (k, f, m_sent s))).
    { intros Z0. cbn [told_ev]. rewrite LE, <- SZ. fold p. rewrite Z.eqb_refl. cbn [andb].
      assert (p <= 100). { apply Z.div_le_upper_bound; lia. } destruct (Z.leb_spec p 100); [reflexivity | lia]. }
    assert (K : forall s0 ev, (s0 = s \/ s0 = set_last s (Some p)) -> (ev = [] \/ (ev = [EPct p] /\ 0 < m_size s)) ->
      let r := (if m_sent s0 <? m_size s0 then if is_end s0 then let '(s1, e1) := transmit c (set_on s0 false) in (s1, ev ++ e1) else (s0, ev)
                else (set_wait (set_on s0 false) (S (m_wait s0)), ev ++ [EEnd])) in fine c s o (Some (k, f, m_sent s)) (fst r) (snd r)).
    { intros s0 ev S0 EV r.
      assert (G0 : good c s0 o (Some (k, f, m_sent s))) by (destruct S0 as [-> | ->]; [exact G | apply good_last; exact G]).
      assert (Q0 : m_q s0 = m_q s /\ m_sent s0 = m_sent s /\ m_size s0 = m_size s /\ m_links s0 = m_links s /\ m_wait s0 = 0%nat) by (destruct S0 as [-> | ->]; repeat split; exact W).
      destruct Q0 as (Q0 & Q1 & Q2 & Q3 & Q4).
      assert (X : exists s2 e2, r = (s2, ev ++ e2) /\ fine c s0 o (Some (k, f, m_sent s)) s2 e2).
      { unfold r. rewrite Q1, Q2. destruct (Z.ltb_spec (m_sent s) (m_size s)) as [L | L].
        - destruct (is_end s0) eqn:E.
          + destruct (transmit c (set_on s0 false)) as [s1 e1] eqn:D. exists s1, e1. split; [reflexivity|].
            pose proof (next_fine c s0 o _ T G0 E (set_on s0 false) eq_refl eq_refl eq_refl Q4) as Y. rewrite D in Y. exact Y.
          + exists s0, []. rewrite app_nil_r. split; [reflexivity|]. apply fine_same; [exact G0 | reflexivity].
        - exists (set_wait (set_on s0 false) (S (m_wait s0))), [EEnd]. split; [reflexivity|]. exists o, (Some (k, f, m_sent s)). cbn [fold_left one_ev told_ev]. rewrite LE.
          split; [reflexivity|]. split; [destruct (Z.eqb_spec (m_sent s) (Z.of_N n)); [reflexivity | lia]|]. split.
          + rewrite Q4. destruct G0 as [A1 B1 C1 D1 E1 F1 H1]. constructor; try assumption.
            * intros _ H. discriminate H.
            * right. split; reflexivity.
            * intros _. exact (F1 (or_introl ltac:(destruct S0 as [-> | ->]; exact O))).
          + split; [intros q g [H | []]; discriminate H|]. cbn. rewrite app_nil_r. reflexivity. }
      destruct X as (s2 & e2 & -> & X). cbn [fst snd]. destruct EV as [-> | [-> Z0]].
      - destruct X as (o' & h' & X1 & X2 & X3 & X4 & X5). exists o', h'. rewrite <- Q0. auto.
      - apply (fine_ev c s0); auto; discriminate. }
    destruct ((0 <? m_size s) && negb match m_last s with Some x => x =? p | None => false end) eqn:C.
    + apply K; [right; reflexivity|]. right. split; [reflexivity|]. apply andb_prop in C. lia.
    + apply K; [left; reflexivity | left; reflexivity].
Qed.
Lemma set_link_size : forall s i x z, set_link (set_size s z) i x = mk_m (m_q s) z (m_sent s) (m_last s) (put_at i x (m_links s)) (m_on s) (m_wait s).
Proof. reflexivity. Qed.
Lemma set_link_eq : forall s i x, set_link s i x = mk_m (m_q s) (m_size s) (m_sent s) (m_last s) (put_at i x (m_links s)) (m_on s) (m_wait s).
Proof. reflexivity. Qed.
Lemma size_ok : forall c s o k f a z, good c s o (Some (k, f, a)) -> len c k f <> None -> z = lenz c k f -> forall i l, nth_error (m_links s) i = Some l -> idle l = false ->
  (forall g, l <> LPrep (JTrunc g)) -> good c (set_size s z) o (Some (k, f, a)).
Proof.
  intros c s o k f a z G LN -> i l N I NT. pose proof (busy_active _ _ _ _ _ _ G N I) as B.
  assert (NT2 : forall g, nth_error (m_links s) 0 = Some (LPrep (JTrunc g)) -> False).
  { intros g X. destruct i as [|i]; [rewrite X in N; injection N as <-; exact (NT g eq_refl)|]. destruct (g_trunc _ _ _ _ G g X) as [_ Y]. rewrite (Y i l N) in I. discriminate I. }
  destruct G as [A1 B1 C1 D1 E1 F1 H1]. constructor; try assumption.
  - intros X. destruct (F1 X) as (k0 & f0 & E & P & _ & S). injection E as <- <- E. exists k, f. cbn [set_size m_sent m_size m_links]. rewrite E. split; [reflexivity|].
    split; [exact P|]. split; [right; split; [exact LN | reflexivity] | exact S].
  - intros g X. destruct (NT2 g X).
Qed.
Lemma answer_fine : forall c s o h i j ok, good c s o h -> nth_error (m_links s) i = Some (LPrep j) -> fine c s o h (fst (answer c s i j ok)) (snd (answer c s i j ok)).
Proof.
  intros c s o h i j ok G N. pose proof (busy_active _ _ _ _ _ _ G N eq_refl) as B. pose proof (g_fit _ _ _ _ G i _ N) as F.
  destruct (g_act _ _ _ _ G B) as (k & f & -> & A & SZ & SUM).
  assert (LT : (i < num c)%nat) by (rewrite <- (g_len _ _ _ _ G); apply nth_error_Some; congruence).
  assert (BUSY : forall s0 j0 n, good c s0 o (Some (k, f, m_sent s)) -> m_q s0 = m_q s -> m_sent s0 = m_sent s -> nth_error (m_links s0) i = Some (LPrep j) ->
    fit c (Some (k, f, m_sent s)) i (LBusy j0 n) -> n <= pend c i (LPrep j) -> fine c s o (Some (k, f, m_sent s)) (set_link s0 i (LBusy j0 n)) []).
  { intros s0 j0 n G0 Q0 S0 N0 F0 P0. apply fine_same; [|exact Q0]. rewrite set_link_eq, S0.
    apply (good_set c s0 o k f (m_sent s) (m_sent s) i (LPrep j) (LBusy j0 n) o (m_size s0)); auto; try discriminate; [cbn [pend] in *; lia | exact (keep_iff _ _ _ _ _ _ (LBusy j0 n) G0 N0 eq_refl eq_refl)]. }
  destruct j as [g|g|g]; cbn [answer].
  - cbn in F. destruct F as (a & E). injection E as -> -> E.
    destruct (if ok then srv c g else None) as [n|] eqn:R.
    + assert (R2 : srv c g = Some n) by (destruct ok; [exact R | discriminate R]).
      set (s0 := if (i =? 0)%nat then set_size s (Z.of_N n) else s).
      assert (G0 : good c s0 o (Some (false, g, m_sent s))).
      { unfold s0. destruct (i =? 0)%nat; [|exact G]. apply (size_ok c s o false g (m_sent s) (Z.of_N n) G) with (i := i) (l := LPrep (JGet g)); auto; try discriminate; unfold lenz, len; rewrite R2; [discriminate | reflexivity]. }
      assert (S0 : m_q s0 = m_q s /\ m_sent s0 = m_sent s /\ m_links s0 = m_links s) by (unfold s0; destruct (i =? 0)%nat; repeat split).
      destruct S0 as (Q0 & S0 & L0). destruct (Z.ltb_spec 0 (share c n i)) as [P | P]; cbn [fst snd].
      * apply BUSY; auto; [rewrite L0; exact N | cbn [fit]; split; [lia | eexists; reflexivity] | cbn [pend]; rewrite R2; lia].
      * pose proof (fine_over c s0 o false g (m_sent s) i (LPrep (JGet g)) G0 ltac:(rewrite L0; exact N) eq_refl) as X.
        destruct X as (o' & h' & X1 & X2 & X3 & X4 & X5). exists o', h'. rewrite <- Q0. auto.
    + cbn [fst snd]. exact (fine_over c s o false g (m_sent s) i _ G N eq_refl).
  - cbn in F. destruct F as (-> & E). injection E as -> -> E0. destruct ok; [|cbn [fst snd]; exact (fine_over c s o true g (m_sent s) 0 _ G N eq_refl)].
    destruct (g_trunc _ _ _ _ G g N) as [S1 OT].
    assert (AL : forall l, In l (m_links s) -> l = LIdle \/ exists g, l = LPrep (JTrunc g)).
    { intros l I. apply In_nth_error in I. destruct I as ([|j] & I); [right; exists g; congruence | left; exact (OT j l I)]. }
    assert (BO : forall j, In j o -> (j < 0 + length (m_links s))%nat).
    { intros j I. apply (g_open _ _ _ _ G) in I. destruct I as (l & I & _). cbn. apply nth_error_Some. congruence. }
    pose proof (put_all_spec c g 0 (m_links s) 0 (g_len _ _ _ _ G) AL o BO) as K. destruct (put_all c g 0 (m_links s)) as [ls e] eqn:PA. cbn [fst snd] in *.
    destruct K as (K1 & K2 & K3 & (o' & F1 & _ & F2) & T & V & W & Y). exists o', (Some (true, g, m_sent s)). split; [exact F1|]. split; [apply T|].
    rewrite V, W, app_nil_r. split; [|split; [intros p q I; destruct (Y p q I) | reflexivity]].
    constructor; cbn [set_links set_size m_links m_on m_wait m_q m_size m_sent].
    + rewrite K1. exact (g_len _ _ _ _ G).
    + intros j. rewrite (F2 j ltac:(lia)), Nat.sub_0_r. reflexivity.
    + intros j l I. destruct (K2 j l I) as [-> | [_ X]]; [exact Logic.I|]. rewrite E0. exact X.
    + intros O1 W1. destruct B; congruence.
    + exact (g_wait _ _ _ _ G).
    + intros _. exists true, g. split; [reflexivity|]. split; [exact A|]. split.
      * unfold put_size, lenz, len. destruct (loc c g) as [n|]; [|left; exact S1]. destruct (opens c true 0 g); [right; split; [discriminate | reflexivity] | left; exact S1].
      * unfold lenz, len. destruct (loc c g) as [n|]; [|lia]. pose proof (ssum_le c n). rewrite (g_len _ _ _ _ G) in K3. lia.
    + intros q I. destruct (K2 0%nat _ I) as [X | [X _]]; discriminate X.
  - cbn in F. destruct F as (a & E). injection E as -> -> E.
    destruct (if ok then loc c g else None) as [n|] eqn:R; cbn [fst snd]; [|exact (fine_over c s o true g (m_sent s) i _ G N eq_refl)].
    assert (R2 : loc c g = Some n) by (destruct ok; [exact R | discriminate R]).
    apply BUSY; auto; [cbn [fit]; split; [apply share_pos; exact LT | eexists; reflexivity] | cbn [pend]; rewrite R2; lia].
Qed.
Lemma give_folds : forall c p fs o h, fold_left one_ev (map (EGive p) fs) (Some o) = Some o /\ fold_left (told_ev (len c)) (map (EGive p) fs) (Some h) = Some h /\
  given (map (EGive p) fs) = map (fun f => (p, f)) fs /\ begun (map (EGive p) fs) = [] /\ forall q g, ~ In (EFailed q g) (map (EGive p) fs).
Proof.
  intros c p fs o h. induction fs as [|f fs IH]; cbn; [repeat split; auto|]. destruct IH as (A & B & C & D & E).
  unfold given, begun in *. rewrite C, D. repeat split; auto. intros q g [H | H]; [discriminate H | exact (E q g H)].
Qed.
Lemma step_fine : forall c s o h a s' e, together c -> good c s o h -> calm_act s a -> step c s a = Some (s', e) -> fine c s o h s' e.
Proof.
  intros c s o h a s' e T G C H. destruct a as [p fs| | |i ok|i k|i|i|i]; cbn [step calm_act] in *.
  - destruct (give_folds c p fs o h) as (A1 & A2 & A3 & A4 & A5).
    destruct (transmit c (set_q s (m_q s ++ map (fun f => (p, f)) fs))) as [s1 e1] eqn:D. injection H as <- <-.
    assert (X : exists o' h', fold_left one_ev e1 (Some o) = Some o' /\ fold_left (told_ev (len c)) e1 (Some h) = Some h' /\ good c s1 o' h' /\
      failed_ok (opens c) (num c) e1 /\ given e1 = [] /\ m_q s ++ map (fun f => (p, f)) fs = begun e1 ++ m_q s1).
    { unfold transmit in D. cbn [set_q m_on m_q] in D. destruct (m_on s) eqn:O.
      - injection D as <- <-. exists o, h. split; [reflexivity|]. split; [reflexivity|]. split; [|split; [intros q g []|]; split; reflexivity].
        destruct G as [B1 B2 B3 B4 B5 B6 B7]. constructor; try assumption. cbn. congruence.
      - destruct (g_rest _ _ _ _ G O C) as [Q L]. assert (I : is_end s = true) by (apply all_idle; rewrite L, repeat_length; reflexivity).
        destruct (good_open_nil _ _ _ _ G I) as [-> _].
        destruct (work_good c T _ (set_q s (m_q s ++ map (fun f => (p, f)) fs)) h s1 e1 L O C D) as (o' & h' & F1 & F2 & G1 & X & Q1 & V). exists o', h'. auto 10. }
    destruct X as (o' & h' & F1 & F2 & G1 & X & V & Q1). exists o', h'. rewrite !fold_left_app, A1, A2. split; [exact F1|]. split; [exact F2|]. split; [exact G1|]. split.
    + intros q g I. apply in_app_or in I. destruct I as [I | I]; [destruct (A5 q g I) | exact (X q g I)].
    + rewrite given_app, begun_app, A3, A4, V, app_nil_r. exact Q1.
  - destruct (m_on s) eqn:O; [|discriminate H]. pose proof (tick_fine c s o h T G O) as X. destruct (tick c s) as [s1 e1]. injection H as <- <-. exact X.
  - destruct (m_wait s) as [|n] eqn:W; [discriminate H|]. destruct (is_end s) eqn:E; [|discriminate H].
    destruct (g_wait _ _ _ _ G) as [W1 | [W1 O]]; [congruence|]. rewrite W1 in W. injection W as <-.
    pose proof (next_fine c s o h T G E (set_wait s 0) eq_refl eq_refl O eq_refl) as X. destruct (transmit c (set_wait s 0)) as [s1 e1]. injection H as <- <-. exact X.
  - destruct (nth_error (m_links s) i) as [[|j|j n|r]|] eqn:N; try discriminate H. pose proof (answer_fine c s o h i j ok G N) as X.
    destruct (answer c s i j ok) as [s1 e1]. injection H as <- <-. exact X.
  - destruct (nth_error (m_links s) i) as [[|j|j n|r]|] eqn:N; try discriminate H. destruct (Z.ltb_spec 0 k) as [P|P]; [|discriminate H]. cbn [andb] in H.
    destruct (Z.leb_spec k n) as [L|L]; [|discriminate H]. injection H as <- <-.
    pose proof (busy_active _ _ _ _ _ _ G N eq_refl) as B. pose proof (g_fit _ _ _ _ G i _ N) as F.
    destruct (g_act _ _ _ _ G B) as (q & f & -> & A & SZ & SUM).
    assert (FJ : file_of j = f /\ fit c (Some (q, f, m_sent s + k)) i (LBusy j (n - k))).
    { destruct j as [g|g|g]; cbn in *; [|contradiction|]; destruct F as (_ & b & F); injection F as -> -> _; (split; [reflexivity|]; split; [lia | eexists; reflexivity]). }
    destruct FJ as [FJ FF]. exists o, (Some (q, f, m_sent s + k)). cbn [fold_left one_ev told_ev]. rewrite FJ, Nat.eqb_refl. split; [reflexivity|]. split; [reflexivity|]. split.
    + apply (good_set c s o q f (m_sent s) (m_sent s + k) i (LBusy j n) (LBusy j (n - k)) o (m_size s)); auto; try discriminate; [lia | cbn [pend]; lia | exact (keep_iff _ _ _ _ _ _ (LBusy j (n - k)) G N eq_refl eq_refl)].
    + split; [intros x g [H | []]; discriminate H|]. cbn. rewrite app_nil_r. reflexivity.
  - destruct (nth_error (m_links s) i) as [[|j|j n|r]|] eqn:N; try discriminate H. destruct (n =? 0); [|discriminate H]. injection H as <- <-.
    pose proof (busy_active _ _ _ _ _ _ G N eq_refl) as B. destruct (g_act _ _ _ _ G B) as (q & f & -> & _). exact (fine_over _ _ _ _ _ _ _ _ G N eq_refl).
  - destruct (nth_error (m_links s) i) as [[|j|j n|r]|] eqn:N; try discriminate H. destruct (is_put j); [|discriminate H]. injection H as <- <-.
    pose proof (busy_active _ _ _ _ _ _ G N eq_refl) as B. destruct (g_act _ _ _ _ G B) as (q & f & -> & _). exact (fine_over _ _ _ _ _ _ _ _ G N eq_refl).
  - rewrite C in H. injection H as <- <-. apply fine_same; [exact G | reflexivity].
Qed.
Lemma run_fine : forall c, together c -> forall l s o h s' t, good c s o h -> calm c s l -> run c s l = Some (s', t) -> fine c s o h s' t.
Proof.
  intros c T. induction l as [|a l IH]; intros s o h s' t G C R; cbn [run calm] in *; [injection R as <- <-; apply fine_same; [exact G | reflexivity]|].
  destruct (step c s a) as [[s1 e1]|] eqn:D; [|discriminate]. destruct (run c s1 l) as [[s2 e2]|] eqn:R2; [|discriminate]. injection R as <- <-.
  destruct C as [C1 C2]. destruct (step_fine c s o h a s1 e1 T G C1 D) as (o1 & h1 & A1 & A2 & A3 & A4 & A5).
  destruct (IH s1 o1 h1 s2 e2 A3 C2 R2) as (o2 & h2 & B1 & B2 & B3 & B4 & B5). exists o2, h2. rewrite !fold_left_app, A1, A2.
  split; [exact B1|]. split; [exact B2|]. split; [exact B3|]. split.
  - intros p f I. apply in_app_or in I. destruct I as [I | I]; [exact (A4 p f I) | exact (B4 p f I)].
  - rewrite given_app, begun_app, app_assoc, A5, <- !app_assoc, B5. reflexivity.
Qed.
Lemma good0 : forall c, good c (m0 c) [] None.
Proof. intros c. apply good_none; reflexivity. Qed.

(** As long as no link goes down at work and the user waits for the next beginning after an end was reported: one file at a
    time, all of them in the order given, and only files that cannot be opened fail. *)
Theorem C154_partial : forall c l s t, together c -> calm c (m0 c) l -> run c (m0 c) l = Some (s, t) ->
  one_at_a_time t /\ given t = begun t ++ m_q s /\ failed_ok (opens c) (num c) t.
Proof.
  intros c l s t T C R. destruct (run_fine c T l (m0 c) [] None s t (good0 c) C R) as (o & h & A1 & A2 & A3 & A4 & A5).
  split; [unfold one_at_a_time; rewrite A1; discriminate|]. split; [exact A5 | exact A4].
Qed.
Print Assumptions C154_partial.
(** a file to get, one that only link 0 has a share of, and one that does not exist on the server *)
Definition three : lcfg := mk_lc 2 (fun f => match f with 1%nat => Some 9%N | _ => None end) (fun f => match f with 2%nat => Some 1%N | _ => None end) (fun p i f => p || (f <? 5)%nat).
Definition session : list mact :=
  [AGive false [1; 7]%nat; AGive true [2]%nat; AAnswer 1 true; ABytes 1 2; AAnswer 0 true; ATick; ABytes 0 4; AEnd 0; ABytes 1 3; ATick; AEnd 1; AWaited;
   AAnswer 0 true; AAnswer 1 true; ATick; ABytes 1 1; ATick; AEnd 1; ADown 0; AWaited; AGive false [3]%nat; AAnswer 0 true; ATick; AAnswer 1 true; ATick].
Example C154_ex : exists s t, run three (m0 three) session = Some (s, t) /\ calm three (m0 three) session /\ together three /\ m_q s = [] /\ m_on s = false /\
  begun t = [(false, 1%nat); (false, 7%nat); (true, 2%nat); (false, 3%nat)] /\ In (EFailed false 7) t /\ In (EPct 22) t.
Proof.
  do 2 eexists. split; [vm_compute; reflexivity|]. split; [vm_compute; repeat split|]. split; [intros f i j _ _; reflexivity|].
  split; [reflexivity|]. split; [reflexivity|]. split; [reflexivity|]. split; cbn; tauto.
Qed.

(** *** nothing is left over *)
(** what goes on without the user, while all links are up *)
Definition system (a : mact) : Prop := match a with AGive _ _ | ADown _ => False | _ => True end.
(** more happened than that a percentage was shown *)
Definition moves (s s' : mst) : Prop := set_last s None <> set_last s' None.
Inductive ends (c : lcfg) : mst -> Prop :=
| ends_rest : forall s, m_q s = [] -> (forall l, In l (m_links s) -> idle l = true) -> m_on s = false -> m_wait s = 0%nat -> ends c s
| ends_step : forall s, (exists a s' e, system a /\ step c s a = Some (s', e) /\ moves s s') ->
    (forall a s' e, system a -> step c s a = Some (s', e) -> moves s s' -> ends c s') -> ends c s.

Definition wt (c : lcfg) (i : nat) (l : lk) : Z :=
  match l with
  | LIdle | LStuck _ => 0
  | LBusy _ n => 1 + n
  | LPrep (JTrunc f) => 1 + 2 * Z.of_nat (num c) + lenz c true f
  | LPrep _ => 2 + pend c i l
  end.
Fixpoint wsum (c : lcfg) (i : nat) (ls : list lk) : Z := match ls with [] => 0 | l :: r => wt c i l + wsum c (S i) r end.
Lemma lenz_pos : forall c k f, 0 <= lenz c k f.
Proof. intros c k f. unfold lenz. destruct (len c k f); lia. Qed.
Lemma wt_pos : forall c h i l, (i < num c)%nat -> fit c h i l -> 0 <= wt c i l.
Proof.
  intros c h i l L F. pose proof (pend_pos c h i l L F) as P. destruct l as [|[f|f|f]|[f|f|f] n|r]; cbn [wt] in *; try lia; cbn in F; try lia; try tauto.
  pose proof (lenz_pos c true f). lia.
Qed.
Lemma wsum_pos : forall c h ls k, (k + length ls <= num c)%nat -> (forall i l, nth_error ls i = Some l -> fit c h (k + i) l) -> 0 <= wsum c k ls.
Proof.
  intros c h. induction ls as [|l ls IH]; intros k L F; cbn [wsum]; [lia|]. cbn [length] in L.
  pose proof (F 0%nat l eq_refl) as F0. rewrite Nat.add_0_r in F0. pose proof (wt_pos c h k l ltac:(lia) F0).
  assert (0 <= wsum c (S k) ls); [|lia]. apply IH; [lia|]. intros i x N. replace (S k + i)%nat with (k + S i)%nat by lia. exact (F (S i) x N).
Qed.
Lemma wsum_put : forall c i x ls k l, nth_error ls i = Some l -> wsum c k (put_at i x ls) = wsum c k ls - wt c (k + i) l + wt c (k + i) x.
Proof.
  intros c. induction i as [|i IH]; intros x [|y ls] k l H; cbn [nth_error] in H; try discriminate H.
  - injection H as ->. unfold put_at. cbn [firstn skipn app wsum]. rewrite Nat.add_0_r. lia.
  - change (put_at (S i) x (y :: ls)) with (y :: put_at i x ls). cbn [wsum]. rewrite (IH x ls (S k) l H). rewrite Nat.add_succ_r. cbn [Nat.add]. lia.
Qed.
Lemma wsum_idle : forall c ls i, (forall j l, nth_error ls j = Some l -> l = LIdle) -> wsum c i ls = 0.
Proof.
  intros c. induction ls as [|l ls IH]; intros i H; cbn [wsum]; [reflexivity|]. rewrite (H 0%nat l eq_refl), IH by (intros j x N; exact (H (S j) x N)). reflexivity.
Qed.
Lemma wsum_puts : forall c f ls i, (i + length ls <= num c)%nat -> (forall j l, nth_error ls j = Some l -> l = LIdle \/ l = LPrep (JPut f)) ->
  wsum c i ls <= 2 * Z.of_nat (length ls) + match loc c f with Some n => ssum c n i (length ls) | None => 0 end.
Proof.
  intros c f. induction ls as [|l ls IH]; intros i L H; cbn [wsum length ssum]; [destruct (loc c f); lia|]. cbn [length] in L.
  pose proof (IH (S i) ltac:(lia) (fun j x N => H (S j) x N)) as K.
  assert (W : wt c i l <= 2 + match loc c f with Some n => share c n i | None => 0 end).
  { destruct (loc c f) as [n|] eqn:E; destruct (H 0%nat l eq_refl) as [-> | ->]; cbn [wt pend]; rewrite ?E; try lia. pose proof (share_pos c n i ltac:(lia)). lia. }
  destruct (loc c f); lia.
Qed.
Definition phase (s : mst) : nat := if m_on s then 2%nat else m_wait s.
Definition less (c : lcfg) (s' s : mst) : Prop :=
  (length (m_q s') < length (m_q s))%nat \/
  (length (m_q s') = length (m_q s) /\ (phase s' < phase s)%nat) \/
  (length (m_q s') = length (m_q s) /\ phase s' = phase s /\ wsum c 0 (m_links s') < wsum c 0 (m_links s)).
Lemma work_len : forall c q s, (length (m_q (fst (work c q s))) <= length q)%nat.
Proof.
  intros c. induction q as [|[p f] q IH]; intros s; cbn [work]; [cbn; lia|].
  destruct (if p then ask_trunc f (m_links s) else ask_get c f 0 (m_links s)) as [[ls ok] e]. destruct ok; [cbn; lia|].
  pose proof (IH (mk_m q (-1) 0 (m_last s) ls (m_on s) (m_wait s))) as K. destruct (work c q _) as [s1 e1]. cbn [fst length] in *. lia.
Qed.
Lemma work_less : forall c s0 s, m_q s0 = m_q s -> m_on s0 = false -> m_wait s0 = 0%nat -> (0 < phase s)%nat -> less c (fst (transmit c s0)) s.
Proof.
  intros c s0 s Q O W P. unfold transmit, less. rewrite O, Q. destruct (m_q s) as [|[p f] q].
  - right. left. cbn [work fst set_q m_q phase]. unfold phase. cbn [m_on m_wait set_q]. rewrite O, W. split; [reflexivity | exact P].
  - left. cbn [work]. destruct (if p then ask_trunc f (m_links s0) else ask_get c f 0 (m_links s0)) as [[ls ok] e]. destruct ok; [cbn; lia|].
    pose proof (work_len c q (mk_m q (-1) 0 (m_last s0) ls (m_on s0) (m_wait s0))) as K. destruct (work c q _) as [s1 e1]. cbn [fst length] in *. lia.
Qed.
Lemma link_less : forall c s i l x s', nth_error (m_links s) i = Some l -> m_q s' = m_q s -> m_on s' = m_on s -> m_wait s' = m_wait s -> m_links s' = put_at i x (m_links s) ->
  wt c i x < wt c i l -> less c s' s.
Proof.
  intros c s i l x s' N Q O W L H. right. right. unfold phase. rewrite Q, O, W, L. split; [reflexivity|]. split; [reflexivity|].
  rewrite (wsum_put c i x (m_links s) 0 l N). cbn [Nat.add]. lia.
Qed.
Lemma step_less : forall c s o h a s' e, good c s o h -> system a -> step c s a = Some (s', e) -> moves s s' -> less c s' s.
Proof.
  intros c s o h a s' e G Y H M. destruct a as [p fs| | |i ok|i k|i|i|i]; cbn [step system] in *; try contradiction.
  - destruct (m_on s) eqn:O; [|discriminate H].
    assert (W : m_wait s = 0%nat) by (destruct (g_wait _ _ _ _ G) as [W | [_ W]]; [exact W | congruence]).
    assert (PH : (0 < phase s)%nat) by (unfold phase; rewrite O; lia).
    unfold tick in H. destruct (m_size s <? 0).
    + destruct (is_end s); [|injection H as <- <-; destruct (M eq_refl)].
      pose proof (work_less c (set_on s false) s eq_refl eq_refl W PH) as K. destruct (transmit c (set_on s false)) as [s1 e1]. injection H as <- <-. exact K.
    + assert (K : forall s0 ev, (s0 = s \/ exists x, s0 = set_last s x) ->
        (if m_sent s0 <? m_size s0 then if is_end s0 then let '(s1, e1) := transmit c (set_on s0 false) in (s1, ev ++ e1) else (s0, ev)
         else (set_wait (set_on s0 false) (S (m_wait s0)), ev ++ [EEnd])) = (s', e) -> less c s' s).
      { intros s0 ev S0 R. assert (Q0 : m_q s0 = m_q s /\ m_wait s0 = m_wait s) by (destruct S0 as [-> | (x & ->)]; split; reflexivity). destruct Q0 as [Q0 W0].
        destruct (m_sent s0 <? m_size s0).
        - destruct (is_end s0).
          + pose proof (work_less c (set_on s0 false) s Q0 eq_refl ltac:(cbn; congruence) PH) as K. destruct (transmit c (set_on s0 false)) as [s1 e1]. injection R as <- <-. exact K.
          + injection R as <- <-. exfalso. apply M. destruct S0 as [-> | (x & ->)]; reflexivity.
        - injection R as <- <-. right. left. cbn [set_wait set_on m_q]. rewrite Q0. split; [reflexivity|]. unfold phase. cbn. rewrite O, W0, W. lia. }
      set (p := m_sent s * 100 / m_size s) in *. pose proof (f_equal (fun x => match x with Some y => y | None => (s, []) end) H) as H1. clear H.
      destruct ((0 <? m_size s) && _).
      * exact (K (set_last s (Some p)) [EPct p] (or_intror (ex_intro _ _ eq_refl)) H1).
      * exact (K s [] (or_introl eq_refl) H1).
  - destruct (m_wait s) as [|n] eqn:W; [discriminate H|]. destruct (is_end s) eqn:E; [|discriminate H].
    destruct (g_wait _ _ _ _ G) as [W1 | [W1 O]]; [congruence|]. rewrite W1 in W. injection W as <-.
    pose proof (work_less c (set_wait s 0) s eq_refl O eq_refl ltac:(unfold phase; rewrite O, W1; lia)) as K. destruct (transmit c (set_wait s 0)) as [s1 e1]. injection H as <- <-. exact K.
  - destruct (nth_error (m_links s) i) as [[|j|j n|r]|] eqn:N; try discriminate H. pose proof (g_fit _ _ _ _ G i _ N) as F.
    assert (LT : (i < num c)%nat) by (rewrite <- (g_len _ _ _ _ G); apply nth_error_Some; congruence).
    pose proof (pend_pos c h i _ LT F) as PP. pose proof (wt_pos c h i _ LT F) as WP.
    assert (ZW : wt c i LIdle < wt c i (LPrep j)) by (destruct j as [g|g|g]; cbn [wt] in *; try lia; pose proof (lenz_pos c true g); lia).
    destruct j as [g|g|g]; cbn [answer] in H.
    + destruct (if ok then srv c g else None) as [n|] eqn:R; [|injection H as <- <-; exact (link_less c s i _ LIdle (set_link s i LIdle) N eq_refl eq_refl eq_refl eq_refl ZW)].
      assert (R2 : srv c g = Some n) by (destruct ok; [exact R | discriminate R]).
      destruct (0 <? share c n i); injection H as <- <-.
      * apply (link_less c s i _ (LBusy (JGet g) (share c n i)) _ N); try (destruct (i =? 0)%nat; reflexivity). cbn [wt pend]. rewrite R2. lia.
      * apply (link_less c s i _ LIdle _ N); try (destruct (i =? 0)%nat; reflexivity). exact ZW.
    + destruct ok; [|injection H as <- <-; exact (link_less c s i _ LIdle (set_link s i LIdle) N eq_refl eq_refl eq_refl eq_refl ZW)].
      cbn in F. destruct F as (-> & ->). destruct (g_trunc _ _ _ _ G g N) as [S1 OT].
      assert (AL : forall l, In l (m_links s) -> l = LIdle \/ exists g, l = LPrep (JTrunc g)).
      { intros l I. apply In_nth_error in I. destruct I as ([|j] & I); [right; exists g; congruence | left; exact (OT j l I)]. }
      assert (BO : forall j, In j [] -> (j < 0 + length (m_links s))%nat) by (intros j []).
      pose proof (put_all_spec c g 0 (m_links s) 0 (g_len _ _ _ _ G) AL [] BO) as K. destruct (put_all c g 0 (m_links s)) as [ls e1] eqn:PA. cbn [fst snd] in *. injection H as <- <-.
      destruct K as (K1 & K2 & _). right. right. cbn [set_links set_size m_q m_links]. split; [reflexivity|]. split; [reflexivity|].
      assert (A1 : wsum c 0 (m_links s) = wt c 0 (LPrep (JTrunc g))).
      { destruct (m_links s) as [|l0 r]; [discriminate N|]. cbn in N. injection N as ->. cbn [wsum]. rewrite wsum_idle; [lia|]. intros j l I. exact (OT j l I). }
      pose proof (wsum_puts c g ls 0 ltac:(rewrite K1, (g_len _ _ _ _ G); lia) ltac:(intros j l I; destruct (K2 j l I) as [X | [X _]]; auto)) as A2.
      rewrite A1. cbn [wt]. rewrite K1, (g_len _ _ _ _ G) in A2. unfold lenz, len. destruct (loc c g) as [n|]; [pose proof (ssum_le c n)|]; lia.
    + destruct (if ok then loc c g else None) as [n|] eqn:R; injection H as <- <-; [|exact (link_less c s i _ LIdle (set_link s i LIdle) N eq_refl eq_refl eq_refl eq_refl ZW)].
      assert (R2 : loc c g = Some n) by (destruct ok; [exact R | discriminate R]).
      apply (link_less c s i _ (LBusy (JPut g) (share c n i)) _ N); try reflexivity. cbn [wt pend]. rewrite R2. lia.
  - destruct (nth_error (m_links s) i) as [[|j|j n|r]|] eqn:N; try discriminate H. destruct (Z.ltb_spec 0 k) as [P|P]; [|discriminate H]. cbn [andb] in H.
    destruct (k <=? n); [|discriminate H]. injection H as <- <-. apply (link_less c s i _ (LBusy j (n - k)) _ N); try reflexivity. cbn [wt]. lia.
  - destruct (nth_error (m_links s) i) as [[|j|j n|r]|] eqn:N; try discriminate H. destruct (n =? 0) eqn:Z0; [|discriminate H]. injection H as <- <-.
    apply (link_less c s i _ LIdle _ N); try reflexivity. cbn [wt]. lia.
  - destruct (nth_error (m_links s) i) as [[|j|j n|r]|] eqn:N; try discriminate H. destruct (is_put j) eqn:Z0; [|discriminate H]. injection H as <- <-.
    pose proof (g_fit _ _ _ _ G i _ N) as F. apply (link_less c s i _ LIdle _ N); try reflexivity. cbn [wt]. destruct j; cbn in F; try lia; tauto.
Qed.
Lemma moved : forall s s', m_q s' <> m_q s \/ m_on s' <> m_on s \/ m_links s' <> m_links s -> moves s s'.
Proof. intros s s' H E. pose proof (f_equal m_q E). pose proof (f_equal m_on E). pose proof (f_equal m_links E). cbn in *. destruct H as [H | [H | H]]; congruence. Qed.
Lemma put_other : forall i x ls l, nth_error ls i = Some l -> x <> l -> put_at i x ls <> ls.
Proof.
  intros i x ls l N D E. assert (LT : (i < length ls)%nat) by (apply nth_error_Some; congruence). pose proof (nth_put i x ls i LT) as P. rewrite E, N, Nat.eqb_refl in P. congruence.
Qed.
Lemma next_moves : forall c s s0, m_q s0 = m_q s -> m_on s0 = false -> m_wait s0 = 0%nat -> (0 < phase s)%nat -> forall e s', transmit c s0 = (s', e) -> moves s s'.
Proof.
  intros c s s0 Q O W P e s' E K. pose proof (work_less c s0 s Q O W P) as X. rewrite E in X. cbn [fst] in X.
  pose proof (f_equal m_q K) as K1. pose proof (f_equal m_on K) as K2. pose proof (f_equal m_wait K) as K3. cbn in K1, K2, K3.
  unfold less, phase in X. rewrite <- K1, <- K2, <- K3 in X. destruct X as [X | [[_ X] | (_ & _ & X)]]; try lia.
  pose proof (f_equal m_links K) as K4. cbn in K4. rewrite <- K4 in X. lia.
Qed.
Lemma step_exists : forall c s o h, good c s o h -> (m_q s = [] /\ is_end s = true /\ m_on s = false /\ m_wait s = 0%nat) \/
  exists a s' e, system a /\ step c s a = Some (s', e) /\ moves s s'.
Proof.
  intros c s o h G. destruct (is_end s) eqn:E.
  - destruct (m_on s) eqn:O.
    + right. assert (W : m_wait s = 0%nat) by (destruct (g_wait _ _ _ _ G) as [W | [_ W]]; [exact W | congruence]).
      exists ATick. cbn [step system]. rewrite O. destruct (tick c s) as [s' e] eqn:T. exists s', e. split; [exact I|]. split; [reflexivity|].
      unfold tick in T. assert (PH : (0 < phase s)%nat) by (unfold phase; rewrite O; lia). destruct (m_size s <? 0).
      * rewrite E in T. exact (next_moves c s (set_on s false) eq_refl eq_refl W PH e s' T).
      * assert (K : forall s0 ev, (s0 = s \/ exists x, s0 = set_last s x) ->
          (if m_sent s0 <? m_size s0 then if is_end s0 then let '(s1, e1) := transmit c (set_on s0 false) in (s1, ev ++ e1) else (s0, ev)
           else (set_wait (set_on s0 false) (S (m_wait s0)), ev ++ [EEnd])) = (s', e) -> moves s s').
        { intros s0 ev S0 R. assert (Q0 : m_q s0 = m_q s /\ m_wait s0 = m_wait s /\ is_end s0 = true) by (destruct S0 as [-> | (x & ->)]; repeat split; exact E). destruct Q0 as (Q0 & W0 & E0).
          rewrite E0 in R. destruct (m_sent s0 <? m_size s0).
          - destruct (transmit c (set_on s0 false)) as [s1 e1] eqn:D. injection R as <- <-. exact (next_moves c s (set_on s0 false) Q0 eq_refl ltac:(cbn; congruence) PH e1 s1 D).
          - injection R as <- <-. apply moved. right. left. cbn. congruence. }
        set (p := m_sent s * 100 / m_size s) in *. destruct ((0 <? m_size s) && _).
        -- exact (K (set_last s (Some p)) [EPct p] (or_intror (ex_intro _ _ eq_refl)) T).
        -- exact (K s [] (or_introl eq_refl) T).
    + destruct (g_wait _ _ _ _ G) as [W | [W _]].
      * left. destruct (g_rest _ _ _ _ G O W) as [Q _]. auto.
      * right. exists AWaited. cbn [step system]. rewrite W, E. destruct (transmit c (set_wait s 0)) as [s' e] eqn:D. exists s', e. split; [exact I|]. split; [reflexivity|].
        exact (next_moves c s (set_wait s 0) eq_refl O eq_refl ltac:(unfold phase; rewrite O, W; lia) e s' D).
  - right. assert (X : exists i l, nth_error (m_links s) i = Some l /\ idle l = false).
    { unfold is_end in E. clear G. induction (m_links s) as [|l r IH]; [discriminate E|]. cbn in E. destruct (idle l) eqn:D; [|exists 0%nat, l; auto].
      destruct (IH E) as (i & x & N & J). exists (S i), x. auto. }
    destruct X as (i & l & N & D). pose proof (g_fit _ _ _ _ G i l N) as F. destruct l as [|j|j n|r]; try discriminate D.
    + exists (AAnswer i false). cbn [step system]. rewrite N. exists (set_link s i LIdle), [EOver i]. split; [exact I|]. split; [destruct j; reflexivity|].
      apply moved. right. right. exact (put_other i LIdle (m_links s) _ N ltac:(discriminate)).
    + destruct (Z.eq_dec n 0) as [-> | NZ].
      * exists (AEnd i). cbn [step system]. rewrite N. exists (set_link s i LIdle), [EOver i]. split; [exact I|]. split; [reflexivity|].
        apply moved. right. right. exact (put_other i LIdle (m_links s) _ N ltac:(discriminate)).
      * exists (ABytes i n). cbn [step system]. rewrite N. assert (NP : 0 < n) by (destruct j; cbn in F; try lia; tauto). rewrite (proj2 (Z.ltb_lt 0 n) NP), Z.leb_refl. cbn [andb].
        do 2 eexists. split; [exact I|]. split; [reflexivity|]. apply moved. right. right. cbn. apply (put_other i _ (m_links s) _ N). intros X. injection X as X. lia.
    + destruct F.
Qed.
Lemma good_ends : forall c, together c -> forall nq np nw s o h, good c s o h -> length (m_q s) = nq -> phase s = np -> Z.to_nat (wsum c 0 (m_links s)) = nw -> ends c s.
Proof.
  intros c T. induction nq as [nq IHq] using lt_wf_ind. induction np as [np IHp] using lt_wf_ind. induction nw as [nw IHw] using lt_wf_ind.
  intros s o h G Q P W. destruct (step_exists c s o h G) as [(A & B & C & D) | X].
  - apply ends_rest; auto. intros l I. exact (proj1 (forallb_forall idle (m_links s)) B l I).
  - apply ends_step; [exact X|]. intros a s' e Y R M. pose proof (step_less c s o h a s' e G Y R M) as L.
    assert (C : calm_act s a) by (destruct a; cbn in *; tauto).
    destruct (step_fine c s o h a s' e T G C R) as (o' & h' & _ & _ & G' & _).
    destruct L as [L | [[L1 L2] | (L1 & L2 & L3)]].
    + exact (IHq _ ltac:(rewrite <- Q; exact L) (phase s') (Z.to_nat (wsum c 0 (m_links s'))) s' o' h' G' eq_refl eq_refl eq_refl).
    + exact (IHp _ ltac:(rewrite <- P; exact L2) (Z.to_nat (wsum c 0 (m_links s'))) s' o' h' G' ltac:(congruence) eq_refl eq_refl).
    + pose proof (wsum_pos c h' (m_links s') 0 ltac:(rewrite (g_len _ _ _ _ G'); lia) (g_fit _ _ _ _ G')).
      exact (IHw (Z.to_nat (wsum c 0 (m_links s'))) ltac:(lia) s' o' h' G' ltac:(congruence) ltac:(congruence) eq_refl).
Qed.
(** whatever the servers answer and in whatever order things happen: the client comes to the end of the list, provided that no
    link goes down at work; then every link is idle and every file has been begun *)
Theorem C154_comes_to_end : forall c l s t, together c -> calm c (m0 c) l -> run c (m0 c) l = Some (s, t) -> ends c s.
Proof.
  intros c l s t T C R. destruct (run_fine c T l (m0 c) [] None s t (good0 c) C R) as (o & h & _ & _ & G & _). exact (good_ends c T _ _ _ s o h G eq_refl eq_refl eq_refl).
Qed.
Print Assumptions C154_comes_to_end.
Example C154_comes_to_end_ex : exists s t, run three (m0 three) (firstn 9 session) = Some (s, t) /\ calm three (m0 three) (firstn 9 session) /\ m_q s = [(false, 7%nat); (true, 2%nat)] /\ is_end s = false.
Proof. do 2 eexists. split; [vm_compute; reflexivity|]. split; [vm_compute; repeat split|]. split; reflexivity. Qed.

(** in any history: as long as files wait, and all links are idle, the next one is begun at once *)
Lemma keeps_on : forall c l s s' t, (m_q s = [] \/ m_on s = true \/ (0 < m_wait s)%nat) -> run c s l = Some (s', t) -> m_q s' = [] \/ m_on s' = true \/ (0 < m_wait s')%nat.
Proof.
  assert (WK : forall c q s, m_q (fst (work c q s)) = [] \/ m_on (fst (work c q s)) = true).
  { intros c. induction q as [|[p f] q IH]; intros s; cbn [work]; [left; reflexivity|].
    destruct (if p then ask_trunc f (m_links s) else ask_get c f 0 (m_links s)) as [[ls ok] e]. destruct ok; [right; reflexivity|].
    pose proof (IH (mk_m q (-1) 0 (m_last s) ls (m_on s) (m_wait s))) as K. destruct (work c q _) as [s1 e1]. exact K. }
  assert (TR : forall c s, m_q (fst (transmit c s)) = [] \/ m_on (fst (transmit c s)) = true).
  { intros c s. unfold transmit. destruct (m_on s) eqn:O; [right; exact O | apply WK]. }
  assert (ST : forall c s a s' e, (m_q s = [] \/ m_on s = true \/ (0 < m_wait s)%nat) -> step c s a = Some (s', e) -> m_q s' = [] \/ m_on s' = true \/ (0 < m_wait s')%nat).
  { intros c s a s' e J H. assert (LK : forall s1, m_q s1 = m_q s -> m_on s1 = m_on s -> m_wait s1 = m_wait s -> m_q s1 = [] \/ m_on s1 = true \/ (0 < m_wait s1)%nat) by (intros s1 -> -> ->; exact J).
    destruct a as [p fs| | |i ok|i k|i|i|i]; cbn [step] in H.
    - pose proof (TR c (set_q s (m_q s ++ map (fun f => (p, f)) fs))) as K. destruct (transmit c _) as [s1 e1]. injection H as <- <-. cbn in K. tauto.
    - destruct (m_on s) eqn:O; [|discriminate H]. injection H as H. unfold tick in H.
      assert (K : forall s0 ev, m_on s0 = true -> (if m_sent s0 <? m_size s0 then if is_end s0 then let '(s1, e1) := transmit c (set_on s0 false) in (s1, ev ++ e1) else (s0, ev)
           else (set_wait (set_on s0 false) (S (m_wait s0)), ev ++ [EEnd])) = (s', e) -> m_q s' = [] \/ m_on s' = true \/ (0 < m_wait s')%nat).
      { intros s0 ev O0 R. destruct (m_sent s0 <? m_size s0).
        - destruct (is_end s0); [|injection R as <- <-; auto]. pose proof (TR c (set_on s0 false)) as K. destruct (transmit c (set_on s0 false)) as [s1 e1]. injection R as <- <-. cbn in K. tauto.
        - injection R as <- <-. right. right. cbn. lia. }
      destruct (m_size s <? 0).
      + destruct (is_end s); [|injection H as <- <-; auto]. pose proof (TR c (set_on s false)) as X. destruct (transmit c (set_on s false)) as [s1 e1]. injection H as <- <-. cbn in X. tauto.
      + destruct ((0 <? m_size s) && _); [exact (K (set_last s (Some (m_sent s * 100 / m_size s))) _ O H) | exact (K s [] O H)].
    - destruct (m_wait s) as [|n]; [discriminate H|]. destruct (is_end s); [|discriminate H]. pose proof (TR c (set_wait s n)) as K. destruct (transmit c (set_wait s n)) as [s1 e1]. injection H as <- <-. cbn in K. tauto.
    - destruct (nth_error (m_links s) i) as [[|j|j n|r]|]; try discriminate H. injection H as H. unfold answer in H.
      destruct j as [g|g|g].
      + destruct (if ok then srv c g else None); [destruct (0 <? share c n i)|]; injection H as <- <-; apply LK; destruct (i =? 0)%nat; reflexivity.
      + destruct ok; [destruct (put_all c g 0 (m_links s)) as [ls e1]|]; injection H as <- <-; apply LK; reflexivity.
      + destruct (if ok then loc c g else None); injection H as <- <-; apply LK; reflexivity.
    - destruct (nth_error (m_links s) i) as [[|j|j n|r]|]; try discriminate H. destruct (_ && _); [|discriminate H]. injection H as <- <-. apply LK; reflexivity.
    - destruct (nth_error (m_links s) i) as [[|j|j n|r]|]; try discriminate H. destruct (_ =? _); [|discriminate H]. injection H as <- <-. apply LK; reflexivity.
    - destruct (nth_error (m_links s) i) as [[|j|j n|r]|]; try discriminate H. destruct (is_put j); [|discriminate H]. injection H as <- <-. apply LK; reflexivity.
    - destruct (nth_error (m_links s) i) as [[|j|j n|r]|]; try discriminate H; injection H as <- <-; apply LK; reflexivity. }
  intros c. induction l as [|a l IH]; intros s s' t J R; cbn [run] in R; [injection R as <- <-; exact J|].
  destruct (step c s a) as [[s1 e1]|] eqn:D; [|discriminate]. destruct (run c s1 l) as [[s2 e2]|] eqn:R2; [|discriminate]. injection R as <- <-.
  exact (IH s1 s2 e2 (ST c s a s1 e1 J D) R2).
Qed.
Theorem C154_next : forall c l s t p f q, run c (m0 c) l = Some (s, t) -> m_q s = (p, f) :: q -> is_end s = true ->
  exists l2 s2 t2, (l2 = [ATick] \/ l2 = [AWaited] \/ l2 = [ATick; AWaited]) /\ run c s l2 = Some (s2, t2) /\ In (EBegin p f) t2.
Proof.
  intros c l s t p f q R Q E. pose proof (keeps_on c l (m0 c) s t (or_introl eq_refl) R) as J.
  assert (TR : forall s0, m_q s0 = m_q s -> m_on s0 = false -> exists s1 e1, transmit c s0 = (s1, e1) /\ In (EBegin p f) e1).
  { intros s0 Q0 O0. unfold transmit. rewrite O0, Q0, Q. cbn [work]. destruct (if p then ask_trunc f (m_links s0) else ask_get c f 0 (m_links s0)) as [[ls ok] e].
    destruct ok; [do 2 eexists; split; [reflexivity | left; reflexivity]|]. destruct (work c q _) as [s1 e1]. do 2 eexists. split; [reflexivity | left; reflexivity]. }
  assert (WT : forall s0, m_q s0 = m_q s -> is_end s0 = true -> m_on s0 = false -> (0 < m_wait s0)%nat -> exists s2 t2, run c s0 [AWaited] = Some (s2, t2) /\ In (EBegin p f) t2).
  { intros s0 Q0 E0 O0 W0. cbn [run step]. destruct (m_wait s0) as [|n] eqn:W; [lia|]. rewrite E0. destruct (TR (set_wait s0 n) Q0 O0) as (s1 & e1 & -> & B). do 2 eexists. split; [reflexivity|]. rewrite app_nil_r. exact B. }
  destruct (m_on s) eqn:O.
  - destruct (tick c s) as [s1 e1] eqn:T.
    assert (K : In (EBegin p f) e1 \/ (m_q s1 = m_q s /\ is_end s1 = true /\ m_on s1 = false /\ (0 < m_wait s1)%nat)).
    { unfold tick in T.
      assert (K : forall s0 ev, (s0 = s \/ exists x, s0 = set_last s x) ->
          (if m_sent s0 <? m_size s0 then if is_end s0 then let '(s1, e1) := transmit c (set_on s0 false) in (s1, ev ++ e1) else (s0, ev)
           else (set_wait (set_on s0 false) (S (m_wait s0)), ev ++ [EEnd])) = (s1, e1) -> In (EBegin p f) e1 \/ (m_q s1 = m_q s /\ is_end s1 = true /\ m_on s1 = false /\ (0 < m_wait s1)%nat)).
      { intros s0 ev S0 X. assert (Q0 : m_q s0 = m_q s /\ is_end s0 = true) by (destruct S0 as [-> | (x & ->)]; split; auto). destruct Q0 as [Q0 E0]. rewrite E0 in X.
        destruct (m_sent s0 <? m_size s0).
        - destruct (TR (set_on s0 false) Q0 eq_refl) as (s2 & e2 & Y & B). rewrite Y in X. injection X as <- <-. left. apply in_or_app. right. exact B.
        - injection X as <- <-. right. split; [exact Q0|]. split; [exact E0|]. split; [reflexivity | cbn; lia]. }
      destruct (m_size s <? 0).
      - rewrite E in T. destruct (TR (set_on s false) eq_refl eq_refl) as (s2 & e2 & Y & B). rewrite Y in T. injection T as <- <-. left. exact B.
      - destruct ((0 <? m_size s) && _); [exact (K (set_last s (Some (m_sent s * 100 / m_size s))) _ (or_intror (ex_intro _ _ eq_refl)) T) | exact (K s [] (or_introl eq_refl) T)]. }
    destruct K as [K | (K1 & K2 & K3 & K4)].
    + exists [ATick], s1, (e1 ++ []). split; [auto|]. cbn [run step]. rewrite O, T. split; [reflexivity | rewrite app_nil_r; exact K].
    + destruct (WT s1 K1 K2 K3 K4) as (s2 & t2 & Y & B). exists [ATick; AWaited], s2, (e1 ++ t2). split; [auto|].
      change (run c s [ATick; AWaited]) with (match step c s ATick with Some (s1, e1) => match run c s1 [AWaited] with Some (s2, e2) => Some (s2, e1 ++ e2) | None => None end | None => None end).
      cbn [step]. rewrite O, T, Y. split; [reflexivity | apply in_or_app; right; exact B].
  - destruct J as [J | [J | J]]; [congruence | congruence|]. destruct (WT s eq_refl E O J) as (s2 & t2 & Y & B). exists [AWaited], s2, t2. auto.
Qed.
Print Assumptions C154_next.
Example C154_next_ex : exists s t, run three (m0 three) (firstn 11 session) = Some (s, t) /\ m_q s = [(false, 7%nat); (true, 2%nat)] /\ is_end s = true.
Proof. do 2 eexists. split; [vm_compute; reflexivity|]. split; reflexivity. Qed.

(** in any history: beginning files leaves every link alone that is at work *)
Definition begins (a : mact) : Prop := match a with AGive _ _ | ATick | AWaited => True | _ => False end.
Lemma work_alone : forall c q s i l, nth_error (m_links s) i = Some l -> idle l = false -> nth_error (m_links (fst (work c q s))) i = Some l.
Proof.
  intros c.
  assert (AG : forall f ls k i l, nth_error ls i = Some l -> idle l = false -> nth_error (fst (fst (ask_get c f k ls))) i = Some l).
  { intros f. induction ls as [|x ls IH]; intros k i l N D; [destruct i; discriminate N|]. cbn [ask_get]. pose proof (fun j => IH (S k) j l) as J. destruct (ask_get c f (S k) ls) as [[r ok] e]. cbn [fst] in J.
    destruct i as [|i]; cbn in N.
    - injection N as ->. rewrite D. reflexivity.
    - destruct (idle x && opens c false k f); exact (J i N D). }
  assert (AT : forall f ls i l, nth_error ls i = Some l -> idle l = false -> nth_error (fst (fst (ask_trunc f ls))) i = Some l).
  { intros f [|x ls] i l N D; [destruct i; discriminate N|]. cbn [ask_trunc]. destruct (idle x) eqn:X; [|exact N]. destruct i as [|i]; cbn in N; [injection N as ->; congruence | exact N]. }
  induction q as [|[p f] q IH]; intros s i l N D; cbn [work]; [exact N|].
  assert (K : nth_error (fst (fst (if p then ask_trunc f (m_links s) else ask_get c f 0 (m_links s)))) i = Some l) by (destruct p; [apply AT | apply AG]; assumption).
  destruct (if p then ask_trunc f (m_links s) else ask_get c f 0 (m_links s)) as [[ls ok] e]. cbn [fst] in K. destruct ok; [exact K|].
  pose proof (IH (mk_m q (-1) 0 (m_last s) ls (m_on s) (m_wait s)) i l K D) as J. destruct (work c q _) as [s1 e1]. exact J.
Qed.
Theorem C154_alone : forall c s a s' e i l, begins a -> step c s a = Some (s', e) -> nth_error (m_links s) i = Some l -> l <> LIdle -> nth_error (m_links s') i = Some l.
Proof.
  intros c s a s' e i l B H N D0. assert (D : idle l = false) by (destruct l; [destruct (D0 eq_refl)| | |]; reflexivity).
  assert (TR : forall s0, m_links s0 = m_links s -> nth_error (m_links (fst (transmit c s0))) i = Some l).
  { intros s0 L. unfold transmit. destruct (m_on s0); [cbn [fst]; congruence|]. apply work_alone; [congruence | exact D]. }
  destruct a as [p fs| | |j ok|j k|j|j|j]; cbn [step begins] in *; try contradiction.
  - pose proof (TR (set_q s (m_q s ++ map (fun f => (p, f)) fs)) eq_refl) as K. destruct (transmit c _) as [s1 e1]. injection H as <- <-. exact K.
  - destruct (m_on s); [|discriminate H]. injection H as H. unfold tick in H.
    assert (K : forall s0 ev, m_links s0 = m_links s -> (if m_sent s0 <? m_size s0 then if is_end s0 then let '(s1, e1) := transmit c (set_on s0 false) in (s1, ev ++ e1) else (s0, ev)
           else (set_wait (set_on s0 false) (S (m_wait s0)), ev ++ [EEnd])) = (s', e) -> nth_error (m_links s') i = Some l).
    { intros s0 ev L R. destruct (m_sent s0 <? m_size s0).
      - destruct (is_end s0); [|injection R as <- <-; congruence]. pose proof (TR (set_on s0 false) L) as K. destruct (transmit c (set_on s0 false)) as [s1 e1]. injection R as <- <-. exact K.
      - injection R as <- <-. cbn. congruence. }
    destruct (m_size s <? 0).
    + destruct (is_end s); [|injection H as <- <-; exact N]. pose proof (TR (set_on s false) eq_refl) as X. destruct (transmit c (set_on s false)) as [s1 e1]. injection H as <- <-. exact X.
    + destruct ((0 <? m_size s) && _); [exact (K (set_last s (Some (m_sent s * 100 / m_size s))) _ eq_refl H) | exact (K s [] eq_refl H)].
  - destruct (m_wait s) as [|n]; [discriminate H|]. destruct (is_end s); [|discriminate H]. pose proof (TR (set_wait s n) eq_refl) as K. destruct (transmit c (set_wait s n)) as [s1 e1]. injection H as <- <-. exact K.
Qed.
Print Assumptions C154_alone.
(** link 0 is still at work on file 1 when the user asks for file 2, then puts file 3 *)
Example C154_alone_ex : exists s t s' e, run two (m0 two) too_early = Some (s, t) /\ step two s (AGive true [3%nat]) = Some (s', e) /\
  nth_error (m_links s) 0 = Some (LBusy (JGet 1) 0) /\ nth_error (m_links s) 1 = Some (LPrep (JGet 2)) /\ e = [EGive true 3; EBegin true 3; EFailed true 3].
Proof. do 4 eexists. split; [vm_compute; reflexivity|]. split; [vm_compute; reflexivity|]. repeat split. Qed.

(** ** C155: the progress that is shown *)
Definition C155_statement : Prop := forall c l s t, run c (m0 c) l = Some (s, t) -> told_right (len c) t.
(** file 2 was begun by one link in the window of C154; its bytes are counted as bytes of file 3, whose end is reported
    although nothing of it has been sent *)
Definition miscounted : list mact := too_early ++ [AEnd 0; AGive true [3%nat]; AAnswer 1 true; ABytes 1 5; AAnswer 0 true; ATick].
Theorem C155_refuted : exists s t, run two (m0 two) miscounted = Some (s, t) /\ ~ told_right (len two) t /\
  skipn 13 t = [EOver 0; EGive true 3; EBegin true 3; EAsk 0 3; EBytes 1 2 5; EAsk 0 3; EAsk 1 3; EPct 125; EEnd].
Proof. do 2 eexists. split; [vm_compute; reflexivity|]. split; [intro H; apply H; vm_compute; reflexivity | reflexivity]. Qed.
Print Assumptions C155_refuted.
Theorem C155_statement_refuted : ~ C155_statement.
Proof. intro C. destruct C155_refuted as (s & t & R & X & _). exact (X (C two _ s t R)). Qed.
Print Assumptions C155_statement_refuted.
Theorem C155_partial : forall c l s t, together c -> calm c (m0 c) l -> run c (m0 c) l = Some (s, t) -> told_right (len c) t.
Proof.
  intros c l s t T C R. destruct (run_fine c T l (m0 c) [] None s t (good0 c) C R) as (o & h & A1 & A2 & _). unfold told_right. rewrite A2. discriminate.
Qed.
Print Assumptions C155_partial.
Example C155_ex : exists s t, run three (m0 three) session = Some (s, t) /\ calm three (m0 three) session /\ In (EPct 22) t /\ In (EPct 100) t /\ In EEnd t.
Proof. do 2 eexists. split; [vm_compute; reflexivity|]. split; [vm_compute; repeat split|]. split; [cbn; tauto|]. split; cbn; tauto. Qed.
