(** The file client as a whole: a list of files to get and to put, worked off with several links.

    Modelled: file_client/file_client.h: file_client::get_file, put_file (368-386), is_end (388-393), put_file of the matrix
    (396), transmit_file (399-435), update_progress_handler (437-483); of file_socket what these see: get_file (38-64),
    truncate_file (66-84), put_file (86-126), the answers of the server (255-345), the end of a transfer (190-194, 241-245).
    The details of one link are in M_FileLink.v.

    Simplified:
    - transmit_file is one step: it holds file_list_mutex; the links work meanwhile, but none of them looks at another one.
    - do_something_to_all holds the (by default exclusive, include/config.h:1372-1377) mutex of the pool, so put_file of the
      matrix and is_end are one step each. The order in which it visits the links is the order of their numbers here.
    - the lengths of files, and who can open which file, do not change.
    - link 0 exists if any link does; all links are connected when a transfer is begun.
    - the percentage is an integer of any size (unsigned, and a product of size_t in the code). *)
Require Import List ZArith Lia Bool Arith.
From Verif Require Import M_File.
Import ListNotations.
Local Open Scope Z_scope.

(** [opens put i f]: whether link i can open (put) or create (get) the local file f; [srv], [loc]: the files on both sides *)
Record lcfg : Type := mk_lc { num : nat; srv : nat -> option N; loc : nat -> option N; opens : bool -> nat -> nat -> bool }.
(** the share of link i of a file of length n, file_client.h:99-104 and 273-277 *)
Definition share (c : lcfg) (n : N) (i : nat) : Z := snd (slice (Z.of_N n) (Z.of_nat (num c)) (Z.of_nat i)).

Inductive job : Type := JGet (f : nat) | JTrunc (f : nat) | JPut (f : nat).
(** TRANS_IDLE; TRANS_PREPARE; TRANS_BUSY with the number of bytes not yet counted in transmit_size; not idle although the
    link went down meanwhile: reset() (33) is called when the object pool uses an object again (include/object_pool.h:186), not
    when the socket reconnects (include/tcp/client_socket.h:170), so the state remains, and a file_unpacker ([raw]) too: closing empties
    it (unpacker.h:20), so that the first read of the new connection finds no buffer: an assertion fails, or the link receives
    nothing any more (include/tcp/socket.h:31-37; the latter here) *)
Inductive lk : Type := LIdle | LPrep (j : job) | LBusy (j : job) (left : Z) | LStuck (raw : bool).
Definition idle (l : lk) : bool := match l with LIdle => true | _ => false end.

Record mst : Type := mk_m {
  m_q : list (bool * nat);   (* file_list; true: put *)
  m_size : Z;                (* file_size *)
  m_sent : Z;                (* transmit_size *)
  m_last : option Z;         (* the last_percent bound to the timer's call back; None: -1 *)
  m_links : list lk;
  m_on : bool;               (* UPDATE_PROGRESS is started *)
  m_wait : nat               (* handlers of the timer in the loop of line 479 *)
}.
Inductive mev : Type :=
| EGive (put : bool) (f : nat)    (* the user names a file *)
| EBegin (put : bool) (f : nat)   (* "transmit f begin." *)
| EFailed (put : bool) (f : nat)  (* "transmit f failed!" *)
| EAsk (i f : nat)                (* link i sends an order for file f *)
| EBytes (i f : nat) (k : Z)      (* link i received or took up k bytes of file f *)
| EOver (i : nat)                 (* link i is idle *)
| EPct (p : Z)                    (* the percentage is shown *)
| EEnd.                           (* "100% end" *)
Inductive mact : Type :=
| AGive (put : bool) (fs : list nat)
| ATick                           (* the timer calls update_progress_handler *)
| AWaited                         (* a handler leaves the loop of line 479 *)
| AAnswer (i : nat) (ok : bool)   (* the server answers the order of link i *)
| ABytes (i : nat) (k : Z)
| AEnd (i : nat)                  (* link i has handled the last bytes *)
| AFail (i : nat)                 (* the local file cannot be read *)
| ADown (i : nat).                (* the link goes down; it is connected again soon after *)

Definition set_q s x := mk_m x (m_size s) (m_sent s) (m_last s) (m_links s) (m_on s) (m_wait s).
Definition set_links s x := mk_m (m_q s) (m_size s) (m_sent s) (m_last s) x (m_on s) (m_wait s).
Definition set_on s x := mk_m (m_q s) (m_size s) (m_sent s) (m_last s) (m_links s) x (m_wait s).
Definition set_wait s x := mk_m (m_q s) (m_size s) (m_sent s) (m_last s) (m_links s) (m_on s) x.
Definition set_size s x := mk_m (m_q s) x (m_sent s) (m_last s) (m_links s) (m_on s) (m_wait s).
Definition set_sent s x := mk_m (m_q s) (m_size s) x (m_last s) (m_links s) (m_on s) (m_wait s).
Definition set_last s x := mk_m (m_q s) (m_size s) (m_sent s) x (m_links s) (m_on s) (m_wait s).
Definition put_at (i : nat) (x : lk) (l : list lk) : list lk := firstn i l ++ x :: skipn (S i) l.
Definition set_link s i x := set_links s (put_at i x (m_links s)).

(** is_end, 388-393 *)
Definition is_end (s : mst) : bool := forallb idle (m_links s).
(** get_file of the links from number i on, 38-64: master first (420), then the others (421) *)
Fixpoint ask_get (c : lcfg) (f i : nat) (ls : list lk) : list lk * bool * list mev :=
  match ls with
  | [] => ([], true, [])
  | l :: r =>
      let '(r', ok, e) := ask_get c f (S i) r in
      if idle l && opens c false i f then (LPrep (JGet f) :: r', ok, EAsk i f :: e) else (l :: r', false, e)
  end.
(** truncate_file, 66-84: the master only *)
Definition ask_trunc (f : nat) (ls : list lk) : list lk * bool * list mev :=
  match ls with
  | [] => ([], true, [])
  | l :: r => if idle l then (LPrep (JTrunc f) :: r, true, [EAsk 0 f]) else (l :: r, false, [])
  end.
(** transmit_file, 399-435 *)
Fixpoint work (c : lcfg) (q : list (bool * nat)) (s : mst) : mst * list mev :=
  match q with
  | [] => (set_q s [], [])
  | (put, f) :: q' =>
      let '(ls, ok, e) := if put then ask_trunc f (m_links s) else ask_get c f 0 (m_links s) in
      if ok then (mk_m q' (-1) 0 None ls true (m_wait s), EBegin put f :: e)
      else let '(s1, e1) := work c q' (mk_m q' (-1) 0 (m_last s) ls (m_on s) (m_wait s)) in (s1, EBegin put f :: e ++ EFailed put f :: e1)
  end.
Definition transmit (c : lcfg) (s : mst) : mst * list mev := if m_on s then (s, []) else work c (m_q s) s.

(** update_progress_handler, 437-483 *)
Definition tick (c : lcfg) (s : mst) : mst * list mev :=
  if m_size s <? 0 then
    if is_end s then transmit c (set_on s false) else (s, [])
  else
    let p := m_sent s * 100 / m_size s in
    let '(s, e) := if (0 <? m_size s) && negb (match m_last s with Some x => x =? p | None => false end)
                   then (set_last s (Some p), [EPct p]) else (s, []) in
    if m_sent s <? m_size s then
      if is_end s then let '(s1, e1) := transmit c (set_on s false) in (s1, e ++ e1) else (s, e)
    else (set_wait (set_on s false) (S (m_wait s)), e ++ [EEnd]).

(** file_client::put_file, 396, and file_socket::put_file, 86-126, of the links from number i on: it does not look at the state *)
Definition put_one (c : lcfg) (f i : nat) (l : lk) : lk * list mev :=
  match loc c f with
  | Some n => if opens c true i f && (0 <? share c n i) then
                match l with LStuck true => (l, [EAsk i f]) | _ => (LPrep (JPut f), [EAsk i f]) end
              else (LIdle, [EOver i])
  | None => (LIdle, [EOver i])
  end.
Fixpoint put_all (c : lcfg) (f i : nat) (ls : list lk) : list lk * list mev :=
  match ls with
  | [] => ([], [])
  | l :: r => let '(l', e) := put_one c f i l in let '(r', e') := put_all c f (S i) r in (l' :: r', e ++ e')
  end.
(** 96-97 *)
Definition put_size (c : lcfg) (f : nat) (old : Z) : Z :=
  match loc c f with Some n => if opens c true 0 f then Z.of_N n else old | None => old end.

(** handle_msg, 255-345 *)
Definition answer (c : lcfg) (s : mst) (i : nat) (j : job) (ok : bool) : mst * list mev :=
  match j with
  | JGet f =>                                                                              (* 257-297 *)
      match (if ok then srv c f else None) with
      | Some n => let s := if (i =? 0)%nat then set_size s (Z.of_N n) else s in
                  if 0 <? share c n i then (set_link s i (LBusy j (share c n i)), []) else (set_link s i LIdle, [EOver i])
      | None => (set_link s i LIdle, [EOver i])
      end
  | JTrunc f =>                                                                            (* 298-315 *)
      if ok then let '(ls, e) := put_all c f 0 (m_links s) in (set_links (set_size s (put_size c f (m_size s))) ls, e)
      else (set_link s i LIdle, [EOver i])
  | JPut f =>                                                                              (* 316-345 *)
      match (if ok then loc c f else None) with
      | Some n => (set_link s i (LBusy j (share c n i)), [])
      | None => (set_link s i LIdle, [EOver i])
      end
  end.
Definition file_of (j : job) : nat := match j with JGet f | JTrunc f | JPut f => f end.
Definition is_put (j : job) : bool := match j with JPut _ => true | _ => false end.

Definition step (c : lcfg) (s : mst) (a : mact) : option (mst * list mev) :=
  match a with
  | AGive put fs =>                                                                        (* 368-386 *)
      let '(s1, e) := transmit c (set_q s (m_q s ++ map (fun f => (put, f)) fs)) in Some (s1, map (EGive put) fs ++ e)
  | ATick => if m_on s then Some (tick c s) else None
  | AWaited => match m_wait s with
               | O => None
               | S n => if is_end s then Some (transmit c (set_wait s n)) else None         (* 479-480 *)
               end
  | AAnswer i ok => match nth_error (m_links s) i with Some (LPrep j) => Some (answer c s i j ok) | _ => None end
  | ABytes i k => match nth_error (m_links s) i with
                  | Some (LBusy j left) =>
                      if (0 <? k) && (k <=? left) then Some (set_sent (set_link s i (LBusy j (left - k))) (m_sent s + k), [EBytes i (file_of j) k]) else None
                  | _ => None
                  end
  | AEnd i => match nth_error (m_links s) i with
              | Some (LBusy j left) => if left =? 0 then Some (set_link s i LIdle, [EOver i]) else None
              | _ => None
              end
  | AFail i => match nth_error (m_links s) i with
               | Some (LBusy j left) => if is_put j then Some (set_link s i LIdle, [EOver i]) else None   (* 188-189 *)
               | _ => None
               end
  | ADown i => match nth_error (m_links s) i with
               | Some (LBusy j _) => Some (set_link s i (LStuck (negb (is_put j))), [])
               | Some (LPrep _) => Some (set_link s i (LStuck false), [])
               | Some _ => Some (s, [])
               | None => None
               end
  end.
Fixpoint run (c : lcfg) (s : mst) (l : list mact) : option (mst * list mev) :=
  match l with
  | [] => Some (s, [])
  | a :: l' => match step c s a with
               | Some (s1, e1) => match run c s1 l' with Some (s2, e2) => Some (s2, e1 ++ e2) | None => None end
               | None => None
               end
  end.
(** a client with [num c] links, none of which has transferred anything *)
Definition m0 (c : lcfg) : mst := mk_m [] 0 0 None (repeat LIdle (num c)) false 0.
