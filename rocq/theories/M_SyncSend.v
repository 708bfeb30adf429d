(** Synchronous sending over TCP, ST_ASIO_SYNC_SEND: do_direct_sync_send_msg (include/socket.h:580-657), the completion of
    promises in send_handler (include/tcp/socket.h:420-424, 449-453), in on_close (273-282) and by the pop functions
    (include/base.h:689-693), discarding by shrink_send_buffer (include/socket.h:396-416) and by reset (75-108).

    Messages are identified by the call that queued them and their position in it; the last message of a synchronous call
    carries the promise, of which the caller keeps a reference (so dropping the message never breaks the promise).
    Simplifications: writing starts whenever nothing is being written and the link has not been closed (that wake-ups are not
    lost is C23); a stopped io_context stays stopped; ST_ASIO_DELAY_CLOSE is 0, so a link is closed only after its write
    completed, unless the io_context is stopped. *)
From Coq Require Import List Bool Arith.
Import ListNotations.

(** sync_call_result, include/base.h:537 *)
Inductive result : Type := Success | NotApplicable | Timeout.
Record item : Type := mk_i { ow : nat; ix : nat; pr : bool }.
(** a call of a send function: synchronous, with a time limit, its number of messages, the value of its promise, what it returned *)
Record call : Type := mk_c { sync : bool; timed : bool; parts : nat; val : option result; ret : option result }.
(** send_buffer; sending_msgs; from start to on_close; stopped(); all calls so far *)
Record zst : Type := mk_z { buf : list item; out : list item; up : bool; stopped : bool; calls : list call }.
Definition z0 : zst := mk_z [] [] false false [].

Inductive zev : Type :=
| ECall (k n : nat)                (* call k with n messages that are not empty *)
| EWire (i : item)                 (* a message was handed over to the OS completely *)
| EReturn (k : nat) (r : result).  (* synchronous call k returned *)

Inductive zaction : Type :=
| ZCall1 (empty prior timed : bool) (* one message; empty: packing failed *)
| ZCallN (n : nat) (prior timed : bool)
| ZSend (n : nat) (prior : bool)    (* an asynchronous send *)
| ZWrite (n : nat) | ZOk | ZErr
| ZStop | ZClose | ZUp | ZReset
| ZShrink (n : nat) | ZPop (n : nat)
| ZTimeout (k : nat) | ZReturn (k : nat).

(** the messages of one call; [p]: the last one carries the promise *)
Definition items (k n : nat) (p : bool) : list item := map (fun i => mk_i k i (p && (S i =? n))) (seq 0 n).
Definition put (prior : bool) (l b : list item) : list item := if prior then l ++ b else b ++ l.
Definition upd {A} (l : list A) (k : nat) (f : A -> A) : list A := firstn k l ++ match skipn k l with [] => [] | x :: r => f x :: r end.
Definition set_val (r : result) (c : call) : call := mk_c (sync c) (timed c) (parts c) (Some r) (ret c).
Definition set_ret (r : result) (c : call) : call := mk_c (sync c) (timed c) (parts c) (val c) (Some r).
(** for (...) if (iter->p) iter->p->set_value(r) *)
Definition complete (r : result) (l : list item) (cs : list call) : list call :=
  fold_left (fun cs i => if pr i then upd cs (ow i) (set_val r) else cs) l cs.

Definition zstep (s : zst) (a : zaction) : option (zst * list zev) :=
  let k := length (calls s) in
  match a with
  (* include/socket.h:580-632 *)
  | ZCall1 empty prior t =>
      if stopped s then Some (mk_z (buf s) (out s) (up s) (stopped s) (calls s ++ [mk_c true t 0 None (Some NotApplicable)]), [ECall k 1; EReturn k NotApplicable])
      else if empty then Some (mk_z (buf s) (out s) (up s) (stopped s) (calls s ++ [mk_c true t 0 None (Some Success)]), [ECall k 1; EReturn k Success])
      else Some (mk_z (put prior (items k 1 true) (buf s)) (out s) (up s) (stopped s) (calls s ++ [mk_c true t 1 None None]), [ECall k 1])
  (* 634-657 *)
  | ZCallN n prior t =>
      if stopped s then Some (mk_z (buf s) (out s) (up s) (stopped s) (calls s ++ [mk_c true t 0 None (Some NotApplicable)]), [ECall k n; EReturn k NotApplicable])
      else match n with
           | 0 => Some (mk_z (buf s) (out s) (up s) (stopped s) (calls s ++ [mk_c true t 0 None (Some Success)]), [ECall k 0; EReturn k Success])
           | _ => Some (mk_z (put prior (items k n true) (buf s)) (out s) (up s) (stopped s) (calls s ++ [mk_c true t n None None]), [ECall k n])
           end
  (* 538-577 *)
  | ZSend n prior => Some (mk_z (put prior (items k n false) (buf s)) (out s) (up s) (stopped s) (calls s ++ [mk_c false false n None None]), [ECall k n])
  (* do_send_msg, include/tcp/socket.h:384-404 *)
  | ZWrite n =>
      match out s, firstn n (buf s) with
      | [], i :: l => if up s && negb (stopped s) then Some (mk_z (skipn n (buf s)) (i :: l) (up s) (stopped s) (calls s), []) else None
      | _, _ => None
      end
  (* send_handler *)
  | ZOk => match out s with
           | [] => None
           | l => if stopped s then None else Some (mk_z (buf s) [] (up s) (stopped s) (complete Success l (calls s)), map EWire l)
           end
  | ZErr => match out s with
            | [] => None
            | l => if stopped s then None else Some (mk_z (buf s) [] (up s) (stopped s) (complete NotApplicable l (calls s)), [])
            end
  | ZStop => Some (mk_z (buf s) (out s) (up s) true (calls s), [])
  (* close and on_close; afterwards nobody looks at sending_msgs *)
  | ZClose => if up s && (stopped s || match out s with [] => true | _ => false end)
              then Some (mk_z (buf s) [] false (stopped s) (complete NotApplicable (out s) (calls s)), []) else None
  (* do_start *)
  | ZUp => if up s || stopped s then None else Some (mk_z (buf s) (out s) true (stopped s) (calls s), [])
  | ZReset => if up s then None else Some (mk_z [] [] (up s) (stopped s) (calls s), [])
  | ZShrink n => match n with 0 => None | _ => Some (mk_z (skipn n (buf s)) (out s) (up s) (stopped s) (calls s), []) end
  | ZPop n => Some (mk_z (skipn n (buf s)) (out s) (up s) (stopped s) (complete NotApplicable (firstn n (buf s)) (calls s)), [])
  (* 601-605: waiting for the future *)
  | ZTimeout j => match nth_error (calls s) j with
                  | Some (mk_c true true _ None None) => Some (mk_z (buf s) (out s) (up s) (stopped s) (upd (calls s) j (set_ret Timeout)), [EReturn j Timeout])
                  | _ => None
                  end
  | ZReturn j => match nth_error (calls s) j with
                 | Some (mk_c true _ _ (Some r) None) => Some (mk_z (buf s) (out s) (up s) (stopped s) (upd (calls s) j (set_ret r)), [EReturn j r])
                 | _ => None
                 end
  end.
Fixpoint zsteps (s : zst) (l : list zaction) : option (zst * list zev) :=
  match l with
  | [] => Some (s, [])
  | a :: l' =>
    match zstep s a with
    | None => None
    | Some (s1, t1) => match zsteps s1 l' with None => None | Some (s2, t2) => Some (s2, t1 ++ t2) end
    end
  end.
