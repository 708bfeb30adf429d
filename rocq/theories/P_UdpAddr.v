(** C139: UDP messages go where they should and come from whom they are said to come. *)
From Coq Require Import List NArith Bool Lia.
From Verif Require Import M_UdpAddr S_UdpAddr.
Import ListNotations.
Open Scope N_scope.

Definition C139_statement : Prop := forall peer mode l s tr, as_documented mode l -> prun (p_new peer mode) l = Some (s, tr) -> right peer [] tr = true.

(** without connect mode *)
Lemma plain_step s a s' t : p_mode s = false -> p_conn s = false -> a <> PMode -> pstep s a = Some (s', t) ->
  p_mode s' = false /\ p_conn s' = false /\ forall t2, right (p_peer s) (p_buf s) (t ++ t2) = right (p_peer s') (p_buf s') t2.
Proof.
  intros M C N H. destruct a as [x| |ok| | |to m| |from m]; cbn [pstep] in H.
  - injection H as <- <-. cbn. auto.
  - congruence.
  - destruct (p_open s); [discriminate H|]. injection H as <- <-. cbn. rewrite M. auto.
  - destruct (p_open s); [|discriminate H]. injection H as <- <-. cbn. auto.
  - destruct (p_open s); [discriminate H|]. injection H as <- <-. cbn. auto.
  - injection H as <- <-. cbn. auto.
  - destruct (p_buf s) as [|[w m] q] eqn:B; [discriminate H|]. rewrite C in H.
    destruct (p_open s); cbn [negb] in H; injection H as <- <-; cbn; rewrite ?N.eqb_refl; auto.
  - destruct (p_open s && _); [|discriminate H]. injection H as <- <-. rewrite C. cbn. rewrite N.eqb_refl. auto.
Qed.
Lemma plain_run l : forall s s' tr, p_mode s = false -> p_conn s = false -> no_mode l -> prun s l = Some (s', tr) -> right (p_peer s) (p_buf s) tr = true.
Proof.
  induction l as [|a l IH]; intros s s' tr M C N H; cbn [prun] in H; [injection H as _ <-; reflexivity|].
  destruct (pstep s a) as [[s1 t1]|] eqn:E; [|discriminate H]. destruct (prun s1 l) as [[s2 t2]|] eqn:E2; [|discriminate H]. injection H as <- <-.
  assert (N1 : a <> PMode) by (intros ->; apply N; left; reflexivity).
  destruct (plain_step s a s1 t1 M C N1 E) as (M1 & C1 & R). rewrite R.
  exact (IH s1 s2 t2 M1 C1 (fun X => N (or_intror X)) E2).
Qed.
(** An application that does not use connect mode: whatever it sends to whom, whenever it sets the peer's address, starts, closes or uses the
    object again. *)
Theorem C139_partial : forall peer l s tr, no_mode l -> prun (p_new peer false) l = Some (s, tr) -> right peer [] tr = true.
Proof. intros peer l s tr N H. exact (plain_run l (p_new peer false) s tr eq_refl eq_refl N H). Qed.
Example C139_partial_example : exists s tr,
  prun (p_new 1 false) [PSend None 10; PStart true; PSend (Some 5) 11; PPeer 2; PSend None 12; PTake; PTake; PArrive 9 70; PTake; PClose; PReset; PStart false; PSend None 13; PTake] = Some (s, tr) /\
  tr = [XCall None 10; XCall (Some 5) 11; XPeer 2; XCall None 12; XOut 1 10; XOut 5 11; XGot 9 9 70; XOut 2 12; XReset; XCall None 13; XOut 2 13].
Proof. do 2 eexists. split; [vm_compute; reflexivity|]. reflexivity. Qed.

(** with connect mode: one peer *)
Record one (fresh : bool) (s : pst) : Prop := {
  o_buf : Forall (fun x => fst x = p_peer s) (p_buf s);
  o_kern : forall k, p_kern s = Some k -> k = p_peer s;
  o_conn : p_open s = true -> p_conn s = true -> p_kern s = Some (p_peer s);
  o_mode : p_conn s = true -> p_mode s = true;
  o_fresh : fresh = true -> p_buf s = [] /\ p_open s = false /\ p_kern s = None
}.
Definition keep (fresh : bool) (a : pact) : bool := match a with PSend _ _ | PStart _ => false | PReset => true | _ => fresh end.
Definition peer_of (peer : N) (a : pact) : N := match a with PPeer x => x | _ => peer end.
Definition fits (fresh : bool) (peer : N) (a : pact) : bool :=
  match a with PPeer _ => fresh | PSend (Some x) _ => x =? peer | _ => true end.
Lemma one_peer_cons fresh peer a l : one_peer fresh peer (a :: l) = true -> fits fresh peer a = true /\ one_peer (keep fresh a) (peer_of peer a) l = true.
Proof.
  destruct a as [x| |ok| | |[x|] m| |from m]; cbn [one_peer fits keep peer_of]; intros H; try (split; [reflexivity|exact H]);
  apply andb_prop in H; exact H.
Qed.
Lemma one_step fresh s a s' t : one fresh s -> fits fresh (p_peer s) a = true -> pstep s a = Some (s', t) ->
  one (keep fresh a) s' /\ p_peer s' = peer_of (p_peer s) a /\ forall t2, right (p_peer s) (p_buf s) (t ++ t2) = right (p_peer s') (p_buf s') t2.
Proof.
  intros [B K C M F] N H. destruct a as [x| |ok| | |to m| |from m]; cbn [pstep fits keep peer_of] in *.
  - injection H as <- <-. destruct (F N) as (B0 & O0 & K0). split; [|split; reflexivity].
    split; cbn; rewrite ?B0, ?O0, ?K0; [constructor|intros k X; discriminate X|intros X; discriminate X|exact M|auto].
  - injection H as <- <-. split; [|split; reflexivity]. split; cbn; try assumption. reflexivity.
  - destruct (p_open s); [discriminate H|]. injection H as <- <-. split; [|split; reflexivity]. split; cbn; [exact B| | | |intros X; discriminate X].
    + intros k X. destruct (p_mode s && ok); [injection X as <-; reflexivity|discriminate X].
    + intros _ X. destruct (p_mode s) eqn:E; [rewrite X; reflexivity|]. discriminate (M X).
    + destruct (p_mode s) eqn:E; [reflexivity|exact M].
  - destruct (p_open s) eqn:O; [|discriminate H]. injection H as <- <-. split; [|split; reflexivity]. split; cbn; [exact B|intros k X; discriminate X|intros X; discriminate X|exact M|].
    intros X. destruct (F X) as (_ & O0 & _). discriminate O0.
  - destruct (p_open s); [discriminate H|]. injection H as <- <-. split; [|split; reflexivity]. split; cbn; [constructor|intros k X; discriminate X|intros X; discriminate X|intros X; discriminate X|auto].
  - injection H as <- <-. split; [|split; reflexivity]. split; cbn; [|exact K|exact C|exact M|intros X; discriminate X].
    apply Forall_app. split; [exact B|]. constructor; [|constructor]. cbn. destruct to as [x|]; [apply N.eqb_eq; exact N|reflexivity].
  - destruct (p_buf s) as [|[w m] q] eqn:E; [discriminate H|]. inversion B as [|? ? W Q]; subst. cbn in W. subst w.
    assert (NF : fresh = true -> False) by (intros X; destruct (F X) as (X1 & _); discriminate X1).
    assert (I : one fresh (mk_p (p_peer s) (p_mode s) (p_conn s) (p_kern s) (p_open s) q)) by (split; cbn; [exact Q|exact K|exact C|exact M|intros X; destruct (NF X)]).
    destruct (p_open s) eqn:O; cbn [negb] in H; [|injection H as <- <-; split; [exact I|split; [reflexivity|]]; intros t2; cbn; rewrite N.eqb_refl; reflexivity].
    destruct (p_conn s) eqn:EC.
    + rewrite (C eq_refl eq_refl) in H, I. injection H as <- <-. split; [exact I|split; [reflexivity|]]. intros t2. cbn. rewrite !N.eqb_refl. reflexivity.
    + injection H as <- <-. split; [exact I|split; [reflexivity|]]. intros t2. cbn. rewrite !N.eqb_refl. reflexivity.
  - destruct (p_open s) eqn:O; cbn [andb] in H; [|discriminate H]. destruct (match p_kern s with Some k => from =? k | None => true end) eqn:G; [|discriminate H]. injection H as <- <-.
    split; [split; rewrite ?O; auto|split; [reflexivity|]]. intros t2. cbn. destruct (p_conn s) eqn:EC; [|rewrite N.eqb_refl; reflexivity].
    rewrite (C eq_refl eq_refl) in G. rewrite G. reflexivity.
Qed.
Lemma one_run l : forall fresh s s' tr, one fresh s -> one_peer fresh (p_peer s) l = true -> prun s l = Some (s', tr) -> right (p_peer s) (p_buf s) tr = true.
Proof.
  induction l as [|a l IH]; intros fresh s s' tr I N H; cbn [prun] in H; [injection H as _ <-; reflexivity|].
  destruct (pstep s a) as [[s1 t1]|] eqn:E; [|discriminate H]. destruct (prun s1 l) as [[s2 t2]|] eqn:E2; [|discriminate H]. injection H as <- <-.
  apply one_peer_cons in N as (N1 & N2). destruct (one_step fresh s a s1 t1 I N1 E) as (I1 & P1 & R). rewrite R. rewrite <- P1 in N2.
  exact (IH (keep fresh a) s1 s2 t2 I1 N2 E2).
Qed.
(** An application that uses each life of a socket for one peer only: with or without connect mode, and whether or not connecting succeeds. *)
Theorem C139_one_peer_partial : forall peer mode l s tr, one_peer true peer l = true -> prun (p_new peer mode) l = Some (s, tr) -> right peer [] tr = true.
Proof.
  intros peer mode l s tr N H. refine (one_run l true (p_new peer mode) s tr _ N H).
  split; cbn; [constructor|intros k X; discriminate X|intros X; discriminate X|intros X; discriminate X|auto].
Qed.
Definition one_peer_case : list pact := [PPeer 3; PSend None 10; PMode; PStart true; PSend (Some 3) 11; PTake; PTake; PArrive 3 70; PClose; PStart false; PArrive 8 71; PSend None 12; PTake; PClose; PReset; PPeer 4; PStart true; PSend None 13; PTake; PArrive 4 72].
Example C139_one_peer_partial_example : one_peer true 1 one_peer_case = true /\ exists s tr,
  prun (p_new 1 false) one_peer_case = Some (s, tr) /\
  tr = [XPeer 3; XCall None 10; XCall (Some 3) 11; XOut 3 10; XOut 3 11; XGot 3 3 70; XGot 8 8 71; XCall None 12; XOut 3 12; XReset; XPeer 4; XCall None 13; XOut 4 13; XGot 4 4 72].
Proof. split; [vm_compute; reflexivity|]. do 2 eexists. split; [vm_compute; reflexivity|]. reflexivity. Qed.

(** Why the documentation must be followed: a message sent to address 5 over a socket connected to 1 goes to 1. *)
Example C139_other_address_sharp : exists l s tr, prun (p_new 1 true) l = Some (s, tr) /\ In (XCall (Some 5) 11) tr /\ In (XOut 1 11) tr /\ right 1 [] tr = false.
Proof. exists [PStart true; PSend (Some 5) 11; PTake]. do 2 eexists. split; [vm_compute; reflexivity|]. cbn. auto. Qed.
(** After the peer's address was changed, messages of the connected peer 1 are said to be from 2. *)
Theorem C139_label_refuted : exists l s tr, as_documented true l /\ prun (p_new 1 true) l = Some (s, tr) /\ In (XGot 1 2 70) tr /\ right 1 [] tr = false.
Proof. exists [PStart true; PPeer 2; PArrive 1 70]. do 2 eexists. split; [right; intros to m X; cbn in X; intuition congruence|]. split; [vm_compute; reflexivity|]. cbn. auto. Qed.
(** A message meant for 1 that was not sent when the socket was closed goes to 2, for which the socket is started the next time. *)
Theorem C139_left_over_refuted : exists l s tr, as_documented true l /\ prun (p_new 1 true) l = Some (s, tr) /\ tr = [XCall None 10; XPeer 2; XOut 2 10] /\ right 1 [] tr = false.
Proof. exists [PStart true; PSend None 10; PClose; PPeer 2; PStart true; PTake]. do 2 eexists. split; [right; intros to m X; cbn in X; intuition congruence|]. split; [vm_compute; reflexivity|]. cbn. auto. Qed.
Theorem C139_statement_refuted : ~ C139_statement.
Proof. intros S. destruct C139_label_refuted as (l & s & tr & D & E & _ & R). rewrite (S 1 true l s tr D E) in R. discriminate R. Qed.

Print Assumptions C139_partial.
Print Assumptions C139_one_peer_partial.
Print Assumptions C139_label_refuted.
Print Assumptions C139_left_over_refuted.
Print Assumptions C139_statement_refuted.
