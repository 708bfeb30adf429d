(** Receiving on demand, include/socket.h with ST_ASIO_PASSIVE_RECV: is_reading and recv_msg (164-167), do_start (329-331),
    clear_reading and test_and_set_reading (419-422), sync_recv_msg (282-303, with ST_ASIO_SYNC_RECV), handle_error (469-481),
    handle_msg (483-541, which never asks for more here, 717-726); do_recv_msg and recv_handler of include/tcp/socket.h:329-384 and
    include/udp/socket.h:268-345.

    One link: the application calls recv_msg and sync_recv_msg from any thread, do_recv_msg and recv_handler run in the strand
    rw_strand, so never two of them at a time.
    Simplifications: one life of the link, from connecting to closing; what the mutex and the condition variable of sync_recv_msg do is in
    M_SyncRecv, here a response reaches the waiting caller in one step; dispatching is in M_Dispatch and M_Handle, here it is
    the event [EAsync] (of no messages: an empty message is made up, 516-521, see C101). *)
From Coq Require Import List NArith Bool Arith.
Import ListNotations.

(** the macros and the kind of the socket *)
Record cfg : Type := mk_cfg { c_sync : bool; (* ST_ASIO_SYNC_RECV *) c_tcp : bool }.
(** the strand: free; in recv_handler before handle_msg, having unpacked these messages (and seen an error); before handle_error *)
Inductive strand : Type := SFree | SHave (ms : list N) (err : bool) | SFail.
Record pst : Type := mk_p {
  p_ready : bool;           (* is_ready() *)
  p_over : bool;            (* the link is, or has begun, closing: not ready any more *)
  p_started : bool;         (* started_ *)
  p_reading : bool;         (* reading *)
  p_queued : nat;           (* do_recv_msg in the strand's queue *)
  p_out : nat;              (* asynchronous reads in progress *)
  p_strand : strand;
  p_wait : option bool }.   (* sr_status is REQUESTED: somebody waits in sync_recv_msg, with a time limit or without *)
(** do_start was called, the link is being established *)
Definition p0 : pst := mk_p false false true false 0 0 SFree None.

Inductive act : Type :=
| PReady                    (* connected (or bound): socket::do_start, 322-334 *)
| PRecv                     (* the application calls recv_msg() *)
| PCall (timed : bool)      (* ... sync_recv_msg() *)
| PTime                     (* the time of the waiting call is over *)
| PRun                      (* do_recv_msg in the strand *)
| PData (ms : list N) (err : bool)   (* a read ends with these messages; recv_handler *)
| PErr                      (* a read ends with an error and no data; recv_handler *)
| PHandle                   (* handle_msg *)
| PFail                     (* handle_error *)
| PDown                     (* a shutdown begins, the status of the link changes *)
| PClose.                   (* close(): started_ is cleared, 439-441 *)
Inductive result : Type := Success (ms : list N) | NotApplicable | Duplicate | Timeout.
Inductive ev : Type :=
| EAsk                      (* recv_msg() or sync_recv_msg() is called, or the library asks for the first read *)
| ERead                     (* async_read, async_receive(_from) *)
| EGot (ms : list N)        (* the messages of a read *)
| EReturn (r : result)      (* a call of sync_recv_msg returns *)
| EAsync (ms : list N).     (* handed over to on_msg / on_msg_handle *)

Definition set_queued (s : pst) (n : nat) : pst := mk_p (p_ready s) (p_over s) (p_started s) (p_reading s) n (p_out s) (p_strand s) (p_wait s).
Definition set_wait (s : pst) (w : option bool) : pst := mk_p (p_ready s) (p_over s) (p_started s) (p_reading s) (p_queued s) (p_out s) (p_strand s) w.
Definition set_strand (s : pst) (x : strand) : pst := mk_p (p_ready s) (p_over s) (p_started s) (p_reading s) (p_queued s) (p_out s) x (p_wait s).
Definition set_read (s : pst) (b : bool) (n : nat) (x : strand) : pst := mk_p (p_ready s) (p_over s) (p_started s) b (p_queued s) n x (p_wait s).
Definition is_free (x : strand) : bool := match x with SFree => true | _ => false end.

(** recv_msg, 166 *)
Definition recv_msg (s : pst) : pst := if p_ready s && negb (p_reading s) then set_queued s (S (p_queued s)) else s.

Definition step (c : cfg) (s : pst) (a : act) : option (pst * list ev) :=
  match a with
  | PReady => if p_ready s || p_over s then None
              else let s1 := mk_p true false (p_started s) (p_reading s) (p_queued s) (p_out s) (p_strand s) (p_wait s) in
                   if c_sync c then Some (s1, []) else Some (recv_msg s1, [EAsk])   (* 329-331 *)
  | PRecv => Some (recv_msg s, [EAsk])
  | PCall t =>
      if negb (c_sync c) then None
      else match p_wait s with
           | Some _ => Some (s, [EReturn Duplicate])                                   (* 288-289 *)
           | None => if p_started s then Some (set_wait (recv_msg s) (Some t), [EAsk])   (* 291-295 *)
                     else Some (recv_msg s, [EAsk; EReturn NotApplicable])
           end
  | PTime => match p_wait s with Some true => Some (set_wait s None, [EReturn Timeout]) | _ => None end
  | PRun =>
      match p_queued s with
      | O => None
      | S n => if negb (is_free (p_strand s)) then None
               else if c_tcp c && negb (p_ready s) then Some (set_queued s n, [])        (* tcp/socket.h:332 *)
               else if p_reading s then Some (set_queued s n, [])                        (* tcp/socket.h:334, udp/socket.h:271 *)
               else Some (set_read (set_queued s n) true (S (p_out s)) SFree, [ERead])
      end
  | PData ms err =>
      match p_out s with
      | O => None
      | S n => if is_free (p_strand s) then Some (set_read s false n (SHave ms err), [EGot ms]) else None   (* tcp/socket.h:349-359 *)
      end
  | PErr =>
      match p_out s with
      | O => None
      | S n => if is_free (p_strand s) then Some (set_read s false n SFail, []) else None   (* tcp/socket.h:377-381 *)
      end
  | PHandle =>
      match p_strand s with
      | SHave ms err =>
          let s1 := set_strand s (if err then SFail else SFree) in
          match p_wait s with
          | Some _ => Some (set_wait s1 None, [EReturn (Success ms)])                   (* 490-500 *)
          | None => Some (s1, [EAsync ms])
          end
      | _ => None
      end
  | PFail =>
      match p_strand s with
      | SFail => match p_wait s with
                 | Some _ => Some (set_wait (set_strand s SFree) None, [EReturn NotApplicable])   (* 473-478 *)
                 | None => Some (set_strand s SFree, [])
                 end
      | _ => None
      end
  | PDown => if p_over s then None else Some (mk_p false true (p_started s) (p_reading s) (p_queued s) (p_out s) (p_strand s) (p_wait s), [])
  | PClose =>
      if p_started s then
        Some (mk_p false true false (p_reading s) (p_queued s) (p_out s) (p_strand s) None,
              match p_wait s with Some _ => [EReturn NotApplicable] | None => [] end)     (* 439-441, 683-689 *)
      else None
  end.
Fixpoint run (c : cfg) (s : pst) (l : list act) : option (pst * list ev) :=
  match l with
  | [] => Some (s, [])
  | a :: l' => match step c s a with
               | Some (s1, e1) => match run c s1 l' with Some (s2, e2) => Some (s2, e1 ++ e2) | None => None end
               | None => None
               end
  end.
