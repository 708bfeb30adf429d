(** Invariants of the timer used by several threads and of message dispatching. *)
From Coq Require Import List NArith Bool Arith Lia Permutation ZifyBool ZifyNat ZifyN.
From Verif Require Import M_FTimer M_Dispatch S_Dispatch.
Import ListNotations.
Open Scope N_scope.

Lemma remove_at_perm {A} k (l : list A) x : nth_error l k = Some x -> Permutation l (x :: remove_at k l).
Proof.
  revert k. induction l as [|y l IH]; intros k H; [destruct k; discriminate|]. destruct k as [|k]; cbn in H.
  - inversion H; subst. reflexivity.
  - unfold remove_at. cbn [firstn skipn app]. change (firstn k l ++ match l with [] => [] | _ :: l0 => skipn k l0 end) with (remove_at k l). rewrite (IH k H) at 1. apply perm_swap.
Qed.

(** ** the timer *)
Definition ids (f : ft) : list N := match f_wait f with Some w => [w] | None => [] end ++ map fst (f_q f) ++ map snd (f_run f).
Record tinv (f : ft) : Prop := {
  ti_nodup : NoDup (ids f);
  ti_le : Forall (fun w => w <= f_no f) (ids f);
  ti_run : Forall (fun '(h, w) => h <> HAgain /\ f_no f - w < 256 /\ (h = HOff -> w = f_no f)) (f_run f)
}.
Lemma tinv_new : tinv ft_new.
Proof. split; cbn; constructor. Qed.
Lemma tinv_perm f g : f_no g = f_no f -> Permutation (ids g) (ids f) -> Forall (fun '(h, w) => h <> HAgain /\ f_no g - w < 256 /\ (h = HOff -> w = f_no g)) (f_run g) -> tinv f -> tinv g.
Proof. intros N P R [A B C]. split; [eapply Permutation_NoDup; [symmetry; exact P|exact A]|rewrite N; eapply Permutation_Forall; [symmetry; exact P|exact B]|exact R]. Qed.
Lemma ids_abort f on : Permutation (ids (mk_ft on (f_no f) None (abort f) (f_run f))) (ids f).
Proof.
  unfold ids, abort. cbn [f_wait f_q f_run app]. destruct (f_wait f) as [w|]; [|reflexivity]. rewrite map_app, <- app_assoc. cbn [map fst app]. symmetry. apply Permutation_middle.
Qed.
Lemma tinv_set1 f : tinv f -> tinv (ft_set1 f).
Proof. intros I. eapply (tinv_perm f); [reflexivity|apply ids_abort|exact (ti_run f I)|exact I]. Qed.
Lemma tinv_stop f : tinv f -> tinv (ft_stop f).
Proof. intros I. unfold ft_stop. destruct (f_on f); [|exact I]. eapply (tinv_perm f); [reflexivity|apply ids_abort|exact (ti_run f I)|exact I]. Qed.
Lemma tinv_set2 f : tinv f -> f_wait f = None -> f_run f = [] -> tinv (ft_set2 f).
Proof.
  intros [A B C] W R. unfold ft_set2. split; unfold ids in *; cbn [f_wait f_q f_run f_no] in *; rewrite W, R in *; cbn [app map] in *; rewrite app_nil_r in *.
  - constructor; [|exact A]. intros X. rewrite Forall_forall in B. apply B in X. lia.
  - constructor; [lia|]. eapply Forall_impl; [|exact B]. cbn. intros a X. lia.
  - constructor.
Qed.
Lemma tinv_expire f g : tinv f -> ft_expire f = Some g -> tinv g.
Proof.
  intros I H. unfold ft_expire in H. destruct (f_wait f) as [w|] eqn:W; [|discriminate]. inversion H; subst g. eapply (tinv_perm f); [reflexivity| |exact (ti_run f I)|exact I].
  unfold ids. cbn [f_wait f_q f_run app]. rewrite W, map_app, <- app_assoc. cbn [map fst app]. symmetry. apply Permutation_middle.
Qed.
Lemma ids_begin f k w ok h : nth_error (f_q f) k = Some (w, ok) -> Permutation (ids (mk_ft (f_on f) (f_no f) (f_wait f) (remove_at k (f_q f)) ((h, w) :: f_run f))) (ids f).
Proof.
  intros N. apply remove_at_perm in N. unfold ids. cbn [f_wait f_q f_run]. apply Permutation_app_head. rewrite (Permutation_map fst N). cbn [map fst snd app]. symmetry. apply Permutation_middle.
Qed.
Lemma tinv_begin f k g c : tinv f -> (forall w ok, nth_error (f_q f) k = Some (w, ok) -> f_no f - w < 256) -> ft_begin f k false = Some (g, c) -> tinv g.
Proof.
  intros I A H. unfold ft_begin in H. destruct (nth_error (f_q f) k) as [[w ok]|] eqn:N; [|discriminate]. specialize (A w ok eq_refl).
  assert (G : forall h, h = HSeq -> tinv (mk_ft (f_on f) (f_no f) (f_wait f) (remove_at k (f_q f)) ((h, w) :: f_run f))).
  { intros h E. eapply (tinv_perm f); [reflexivity|eapply ids_begin; exact N| |exact I]. cbn [f_run f_no]. constructor; [subst; split; [discriminate|]; split; [exact A|discriminate]|exact (ti_run f I)]. }
  destruct (f_on f && ok); inversion H; subst; apply G; reflexivity.
Qed.
Lemma same_seq_eq w n : w <= n -> n - w < 256 -> same_seq w n = true -> w = n.
Proof.
  intros L D S. unfold same_seq in S. apply N.eqb_eq in S. pose proof (N.div_mod w 256 ltac:(lia)). pose proof (N.div_mod n 256 ltac:(lia)). pose proof (N.mod_lt w 256 ltac:(lia)). pose proof (N.mod_lt n 256 ltac:(lia)). assert (n / 256 = w / 256) by nia. nia.
Qed.
Lemma tinv_step f j g : tinv f -> ft_step f j = Some g -> tinv g.
Proof.
  intros I H. unfold ft_step in H. destruct (nth_error (f_run f) j) as [[h w]|] eqn:N; [|discriminate]. pose proof (remove_at_perm j (f_run f) _ N) as P. pose proof (ti_run f I) as R. pose proof R as R0. rewrite P in R. apply Forall_cons_iff in R as ((NA & AG & OF) & R).
  assert (IN : In w (ids f)). { unfold ids. apply in_or_app. right. apply in_or_app. right. rewrite P. left. reflexivity. }
  assert (LE : w <= f_no f). { pose proof (ti_le f I) as L. rewrite Forall_forall in L. apply L. exact IN. }
  assert (DROP : forall on, tinv (mk_ft on (f_no f) (f_wait f) (f_q f) (remove_at j (f_run f)))).
  { intros on. assert (PP : Permutation (ids f) (w :: ids (mk_ft on (f_no f) (f_wait f) (f_q f) (remove_at j (f_run f))))).
    { unfold ids. cbn [f_wait f_q f_run]. rewrite (Permutation_map snd P). cbn [map snd]. rewrite !app_assoc. symmetry. apply Permutation_middle. }
    destruct I as [A B C]. rewrite PP in A, B. inversion A; inversion B; subst. split; assumption. }
  destruct h.
  - congruence.
  - destruct (same_seq w (f_no f)) eqn:S; inversion H; subst g; [|apply DROP].
    eapply (tinv_perm f); [reflexivity| | |exact I]; cbn [f_run f_no].
    + unfold ids. cbn [f_wait f_q f_run]. do 2 apply Permutation_app_head. rewrite (Permutation_map snd P). reflexivity.
    + constructor; [|exact R]. split; [discriminate|]. split; [exact AG|]. intros _. apply same_seq_eq; assumption.
  - inversion H; subst g. apply DROP.
Qed.
Lemma live_iff f : ft_live f = true <-> f_on f = true /\ (f_wait f = Some (f_no f) \/ In (f_no f, true) (f_q f)).
Proof.
  unfold ft_live. rewrite andb_true_iff, orb_true_iff, existsb_exists. split.
  - intros (O & [W|((w, ok) & I & E)]); split; try exact O.
    + left. destruct (f_wait f) as [w|]; [|discriminate]. apply N.eqb_eq in W. congruence.
    + right. apply andb_true_iff in E as (E & ->). apply N.eqb_eq in E. congruence.
  - intros (O & [W|I]); split; try exact O.
    + left. rewrite W. apply N.eqb_refl.
    + right. exists (f_no f, true). split; [exact I|]. rewrite N.eqb_refl. reflexivity.
Qed.
Lemma live_expire f g : ft_live f = true -> ft_expire f = Some g -> ft_live g = true.
Proof.
  intros L H. unfold ft_expire in H. destruct (f_wait f) as [w|] eqn:W; [|discriminate]. inversion H; subst g. apply live_iff in L as (O & L). apply live_iff. cbn [f_on f_wait f_q f_no]. split; [exact O|]. right. apply in_or_app. destruct L as [L|L]; [right|left; exact L]. left. congruence.
Qed.
Lemma live_begin f k g c : ft_live f = true -> ft_begin f k false = Some (g, c) -> c = true \/ ft_live g = true.
Proof.
  intros L H. unfold ft_begin in H. destruct (nth_error (f_q f) k) as [[w ok]|] eqn:N; [|discriminate]. apply live_iff in L as (O & L). rewrite O in H. cbn [andb] in H. destruct ok; inversion H; subst; [left; reflexivity|]. right. apply live_iff. cbn [f_on f_wait f_q f_no]. split; [reflexivity|].
  destruct L as [L|L]; [left; exact L|]. right. apply remove_at_perm in N. rewrite N in L. destruct L as [L|L]; [discriminate|exact L].
Qed.
Lemma live_step f j g : tinv f -> ft_live f = true -> ft_step f j = Some g -> ft_live g = true.
Proof.
  intros I L H. unfold ft_step in H. destruct (nth_error (f_run f) j) as [[h w]|] eqn:N; [|discriminate]. pose proof (remove_at_perm j (f_run f) _ N) as P. pose proof (ti_run f I) as R. rewrite P in R. apply Forall_cons_iff in R as ((NA & AG & OF) & R).
  destruct h; [congruence| |].
  - inversion H; subst g. apply live_iff in L. apply live_iff. exact L.
  - exfalso. specialize (OF eq_refl). subst w. apply live_iff in L as (_ & L). pose proof (ti_nodup f I) as ND. unfold ids in ND. rewrite (Permutation_map snd P) in ND. cbn [map snd] in ND. rewrite app_assoc in ND. apply NoDup_remove_2 in ND. apply ND.
    apply in_or_app. left. apply in_or_app. destruct L as [L|L]; [left; rewrite L; left; reflexivity|right; apply (in_map fst) in L; exact L].
Qed.

(** ** order *)
Lemma replay_app q b t1 t2 : replay q b (t1 ++ t2) = match replay q b t1 with Some (q', b') => replay q' b' t2 | None => None end.
Proof.
  revert q b. induction t1 as [|e t1 IH]; intros q b; [reflexivity|]. cbn [app replay]. destruct e as [ms|[m|]|[m|] ok| |]; try apply IH; try reflexivity.
  - destruct b; [reflexivity|]. destruct q as [|h q]; [reflexivity|]. destruct (h =? m); [apply IH|reflexivity].
  - destruct b; [|reflexivity]. destruct q as [|h q]; [reflexivity|]. destruct (h =? m); [apply IH|reflexivity].
Qed.
Lemma replay_conserves tr : forall q b q' b', replay q b tr = Some (q', b') -> q ++ received tr = handled tr ++ q'.
Proof.
  induction tr as [|e tr IH]; intros q b q' b' H; cbn [replay] in H.
  - inversion H; subst. unfold received, handled. cbn. rewrite app_nil_r. reflexivity.
  - destruct e as [ms|[m|]|[m|] ok| |]; cbn [received handled flat_map]; try discriminate.
    + apply IH in H. rewrite <- app_assoc in H. exact H.
    + destruct b; [discriminate|]. destruct q as [|h q]; [discriminate|]. destruct (h =? m); [|discriminate]. apply IH in H. exact H.
    + destruct b; [|discriminate]. destruct q as [|h q]; [discriminate|]. destruct (N.eqb_spec h m) as [->|]; [|discriminate]. destruct ok; apply IH in H; [cbn [app]; f_equal; exact H|exact H].
    + apply IH in H. exact H.
    + apply IH in H. exact H.
Qed.
(** the messages in the socket's hands *)
Definition hands (s : dst) : list msg := match dm s with Some m => [m] | None => [] end ++ rb s.
Definition is_handling (p : dphase) : bool := match p with PHandling => true | _ => false end.
Record dinv (s : dst) : Prop := {
  di_idle : dpc s = PIdle -> (disp s = true <-> dm s <> None);
  di_held : dpc s = PTaken \/ dpc s = PHandling \/ dpc s = PSet1 \/ dpc s = PSet2 -> dm s <> None;
  di_disp : dpc s = PHandling \/ dpc s = PSet1 \/ dpc s = PSet2 \/ dpc s = PClear -> disp s = true;
  di_none : dpc s = PClear \/ dpc s = PRepost -> dm s = None;
  di_off : dpc s = PRepost -> disp s = false
}.
Lemma dstep_inv s a s' tr : dinv s -> dstep s a = Some (s', tr) ->
  dinv s' /\ replay (hands s) (is_handling (dpc s)) tr = Some (hands s', is_handling (dpc s')).
Proof.
  intros [A B C D E] H. unfold hands.
  destruct a; unfold dstep in H; destruct (ipc s) eqn:IP; destruct (dpc s) eqn:DP; try discriminate;
    repeat match type of H with
    | context [match ft_expire ?f with _ => _ end] => destruct (ft_expire f) as [?|]
    | context [match ft_begin ?f ?k ?b with _ => _ end] => destruct (ft_begin f k b) as [[? ?]|]
    | context [match ft_step ?f ?k with _ => _ end] => destruct (ft_step f k) as [?|]
    | context [match posted s with _ => _ end] => destruct (posted s) eqn:?
    | context [if up s then _ else _] => destruct (up s) eqn:?
    | context [match up s with _ => _ end] => destruct (up s) eqn:?
    | context [ft_quiet ?f] => destruct (ft_quiet f) eqn:?
    | context [if disp s then Some _ else _] => destruct (disp s) eqn:?
    | context [match rb s with _ => _ end] => destruct (rb s) eqn:?
    end; try discriminate; inversion H; subst s' tr; clear H; unfold set_tm in *; cbn [up rb dm disp posted dpc ipc tm is_handling replay app] in *;
    (split; [split; cbn [up rb dm disp posted dpc ipc tm]; try (intuition congruence); try (rewrite DP; intuition congruence)|]); try (rewrite <- ?app_assoc; rewrite ?DP; reflexivity).
  all: try (destruct (dm s) as [m|] eqn:DM; cbn [app]; rewrite ?N.eqb_refl; try reflexivity; exfalso; intuition congruence).
  all: try (destruct ok; cbn; intuition congruence).
  all: try (destruct (dm s) as [m|] eqn:DM; cbn [app]; [|exfalso; intuition congruence]; rewrite N.eqb_refl; destruct ok; cbn [is_handling app]; reflexivity).
  all: try (assert (DM : dm s = None) by (destruct (dm s); [exfalso; assert (false = true) by (apply A; [reflexivity|discriminate]); discriminate|reflexivity]); rewrite DM; reflexivity).
Qed.
