(** Handling received messages with every combination of ST_ASIO_SYNC_DISPATCH (on_msg), ST_ASIO_DISPATCH_BATCH_MSG (on_msg_handle is
    given the whole receive buffer) and ST_ASIO_PASSIVE_RECV: include/socket.h: handle_msg (483-537) after the synchronous part, which
    is M_SyncRecv, dispatch_msg (729), do_dispatch_msg (731-779), timer_handler (785-787); include/container.h:139-148, 194, 83-91.

    The receiving strand and the dispatch strand run concurrently. The retry timer is used by one thread at a time here (the race that
    arises otherwise is in M_FTimer and M_Dispatch); closing is in M_Dispatch. The byte counter does not wrap. *)
From Coq Require Import List NArith Bool Arith.
Import ListNotations.

(** number and size *)
Definition msg : Type := (nat * N)%type.
Definition msize (m : msg) : N := snd m.
Fixpoint bytes (l : list msg) : N := match l with [] => 0%N | m :: r => (msize m + bytes r)%N end.
Record cfg : Type := mk_c { sync : bool; batch : bool; passive : bool }.

(** the receiving strand *)
Inductive iph : Type :=
| IIdle
| IOn (ms : list msg)             (* on_msg runs, 510 *)
| IMove (ms : list msg) (sz : N)  (* before move_items_in with this size, 531 *)
| ITest | IPost.                  (* dispatch_msg, 729 *)
(** the dispatch strand *)
Inductive dph : Type :=
| DIdle | DTaken                  (* before dispatching = true, 736 or 757 *)
| DIn                             (* on_msg_handle runs, 741 or 760 *)
| DSet | DClear | DRepost.        (* 750 or 767; 773; 774 *)
Record hst : Type := mk_h {
  h_buf : list msg; h_bytes : N;  (* recv_buffer and its total_size *)
  h_held : option msg;            (* dispatching_msg *)
  h_disp : bool;                  (* dispatching *)
  h_posted : nat;                 (* do_dispatch_msg calls queued in dis_strand *)
  h_timer : bool;                 (* TIMER_DISPATCH_MSG *)
  h_d : dph; h_i : iph }.
Definition handle0 : hst := mk_h [] 0%N None false 0 false DIdle IIdle.

Inductive act : Type :=
| HRecv (ms : list msg)           (* a read completes: handle_msg is called with these messages in temp_msg_can *)
| HOn (k : nat) (re : bool)       (* on_msg returns; it removed the first k messages; re: its result is positive *)
| HMove | HTest | HPost
| HRun | HMark
| HTake (k : nat)                 (* batch: on_msg_handle removes the first k messages from the buffer *)
| HRet (re : bool)                (* on_msg_handle returns *)
| HSet | HClear | HRepost
| HFire.                          (* the timer's handler *)
Inductive ev : Type :=
| ERead (ms : list msg)           (* messages received *)
| EPad (m : msg)                  (* the empty message made up by the library, 519-520 *)
| EOn (ms : list msg)             (* on_msg is called *)
| EOffer (ms : list msg)          (* on_msg_handle is called *)
| EHandled (ms : list msg).       (* the application took these over *)

(** an empty message *)
Definition pad : msg := (0, 0%N).
Definition held (s : hst) : list msg := match h_held s with Some m => [m] | None => [] end.
Definition set_i (s : hst) (i : iph) : hst := mk_h (h_buf s) (h_bytes s) (h_held s) (h_disp s) (h_posted s) (h_timer s) (h_d s) i.
Definition set_d (s : hst) (d : dph) : hst := mk_h (h_buf s) (h_bytes s) (h_held s) (h_disp s) (h_posted s) (h_timer s) d (h_i s).
Definition set_buf (s : hst) (b : list msg) (n : N) : hst := mk_h b n (h_held s) (h_disp s) (h_posted s) (h_timer s) (h_d s) (h_i s).
Definition set_held (s : hst) (m : option msg) : hst := mk_h (h_buf s) (h_bytes s) m (h_disp s) (h_posted s) (h_timer s) (h_d s) (h_i s).
Definition set_disp (s : hst) (b : bool) : hst := mk_h (h_buf s) (h_bytes s) (h_held s) b (h_posted s) (h_timer s) (h_d s) (h_i s).
Definition set_posted (s : hst) (n : nat) : hst := mk_h (h_buf s) (h_bytes s) (h_held s) (h_disp s) n (h_timer s) (h_d s) (h_i s).
Definition set_timer (s : hst) (b : bool) : hst := mk_h (h_buf s) (h_bytes s) (h_held s) (h_disp s) (h_posted s) b (h_d s) (h_i s).

Definition is_nil (l : list msg) : bool := match l with [] => true | _ => false end.
Definition step (c : cfg) (s : hst) (a : act) : option (hst * list ev) :=
  match a, h_i s, h_d s with
  (* 485, 502-522 *)
  | HRecv ms, IIdle, _ =>
      if sync c then if is_nil ms && negb (passive c) then Some (s, [ERead ms])
                     else Some (set_i s (IOn ms), [ERead ms; EOn ms])
      else if is_nil ms then if passive c then Some (set_i s (IMove [pad] 0%N), [ERead ms; EPad pad]) else Some (s, [ERead ms])
      else Some (set_i s (IMove ms (bytes ms)), [ERead ms])
  (* 510-515; [empty] was computed before and is computed again only if the result is positive *)
  | HOn k re, IOn ms, _ =>
      if k <=? length ms then
        let rest := skipn k ms in
        let empty := if re then is_nil rest else is_nil ms in
        Some (set_i s (if empty then IIdle else IMove rest (if re then 0%N else bytes ms)), [EHandled (firstn k ms)])
      else None
  (* 531, container.h:139-148 *)
  | HMove, IMove ms sz, _ => Some (set_i (set_buf s (h_buf s ++ ms) (h_bytes s + (if (sz =? 0)%N then bytes ms else sz))%N) ITest, [])
  (* 729 *)
  | HTest, ITest, _ => Some (set_i s (if h_disp s then IIdle else IPost), [])
  | HPost, IPost, _ => Some (set_i (set_posted s (S (h_posted s))) IIdle, [])
  (* 734 and 755; 777-778 *)
  | HRun, _, DIdle =>
      match h_posted s with
      | O => None
      | S p =>
        let s1 := set_posted s p in
        if batch c then if is_nil (h_buf s) then Some (set_disp s1 false, []) else Some (set_d s1 DTaken, [])
        else if h_disp s then Some (set_d s1 DTaken, [])
        else match h_buf s with
             | m :: r => Some (set_d (set_held (set_buf s1 r (h_bytes s - msize m)%N) (Some m)) DTaken, [])
             | [] => Some (set_disp s1 false, [])
             end
      end
  | HMark, _, DTaken => Some (set_d (set_disp s true) DIn, [EOffer (if batch c then h_buf s else held s)])
  | HTake k, _, DIn =>
      if batch c && (k <=? length (h_buf s)) then
        Some (set_buf s (skipn k (h_buf s)) (h_bytes s - bytes (firstn k (h_buf s)))%N, [EHandled (firstn k (h_buf s))])
      else None
  | HRet re, _, DIn =>
      if batch c then Some (set_d s (if re then DClear else DSet), [])
      else if re then Some (set_d (set_held s None) DClear, [EHandled (held s)])
      else Some (set_d s DSet, [])
  | HSet, _, DSet => Some (set_d (set_timer s true) DIdle, [])
  | HClear, _, DClear => Some (set_d (set_disp s false) DRepost, [])
  | HRepost, _, DRepost => Some (set_d (set_posted s (S (h_posted s))) DIdle, [])
  (* 785-787 *)
  | HFire, _, _ => if h_timer s then Some (set_posted (set_timer s false) (S (h_posted s)), []) else None
  | _, _, _ => None
  end.
Fixpoint run (c : cfg) (s : hst) (l : list act) : option (hst * list ev) :=
  match l with
  | [] => Some (s, [])
  | a :: l' => match step c s a with
               | Some (s1, e1) => match run c s1 l' with Some (s2, e2) => Some (s2, e1 ++ e2) | None => None end
               | None => None
               end
  end.
