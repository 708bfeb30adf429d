(** The sending side of a UDP socket, plain or reliable (KCP), as a transition system: application threads calling the send
    functions, the I/O strand, completions, and TIMER_CC, interleaved at the level of the individual atomic operations.

    Sources: include/socket.h:176 (send_msg), 427-428 (sending flag), 431-467 (close), 781-818 (timer_handler);
    include/udp/socket.h:183-207 (do_start), 247 (resume_sending), 330-353 (do_send_msg), 355-393 (send_handler);
    include/udp/reliable_socket.h:113-121 (check_send_cc), 123-136 (do_send_msg), 166-182 (timer_handler);
    the timer is M_FTimer.v.

    Simplifications: sequentially consistent atomics; messages are numbers; application threads are counted, not named, since they
    share nothing but the members modelled here; how full KCP's queue is, is one bit the environment may change at any time; KCP
    takes a message with the same two steps (start, completion) as the network does; application code called back in the strand
    is like another thread, because the flag is set while it runs; statistics and synchronous sending (M_SyncSend.v) are left out. *)
From Coq Require Import List NArith Bool Arith.
From Verif Require Import M_FTimer.
Import ListNotations.
Open Scope N_scope.

(** the handler running in the strand *)
Inductive uphase : Type :=
| UIdle
| UDo (in_strand : bool)   (* do_send_msg, include/udp/socket.h:332 *)
| UTake                    (* include/udp/socket.h:334-336 *)
| USet1 | USet2            (* check_send_cc calls set_timer, include/udp/reliable_socket.h:119 *)
| UClr                     (* include/udp/socket.h:351 *)
| UEmp                     (* include/udp/socket.h:352 *)
| UErr.                    (* send_handler, include/udp/socket.h:387 *)

(** result of a send: success; an error; not_socket or bad_descriptor, which only a closed socket yields *)
Inductive ures : Type := ROk | RErr | RFatal.

Record ust : Type := mk_u {
  u_buf : list N;       (* send_buffer *)
  u_fly : list N;       (* sends in progress; the last one is in sending_msg *)
  u_flag : bool;        (* sending = 1 *)
  u_chk : nat;          (* threads in send_msg, before is_ready() *)
  u_ld : nat;           (* threads in send_msg, before sending.load() *)
  u_post : nat;         (* do_send_msg(false) calls waiting in the strand *)
  u_pc : uphase;
  u_ready : bool;       (* is_ready(): is_bound, never cleared by closing *)
  u_open : bool;        (* started and not closed since *)
  u_win : bool;         (* kcp->nsnd_que <= max_nsnd_que *)
  u_res : nat;          (* resume_sending after clear_sending(), include/udp/socket.h:247 *)
  u_tm : ft             (* TIMER_CC *)
}.
(** a constructed socket that has not been started *)
Definition u0 : ust := mk_u [] [] false 0 0 0 UIdle false false true 0 ft_new.

Inductive uev : Type := EvQueued (prior : bool) (m : N) | EvStart (m : N) | EvDone (m : N) (r : ures).

Inductive uact : Type :=
| AEnq (prior : bool) (m : N)   (* a thread puts a message into the send buffer *)
| AReady | ALoad                (* a thread goes on in send_msg *)
| ARun                          (* the strand runs a queued do_send_msg *)
| AStrand                       (* the handler in the strand executes its next operation *)
| ADone (k : nat) (r : ures)    (* a send completed; its handler runs up to sending_msg.clear() *)
| ARes                          (* resume_sending looks at the send buffer *)
| AWin (b : bool)               (* KCP's queue gets shorter or longer *)
| AExpire | ABegin (k : nat) | AStep (j : nat)   (* TIMER_CC *)
| AClose                        (* close, include/socket.h:431-467 *)
| AStopT                        (* TIMER_DELAY_CLOSE finds calls in progress, include/socket.h:790-794 *)
| AStart.                       (* start, include/socket.h:150-162, include/udp/socket.h:183-207: after the former closing completed (no calls in progress) *)

Definition set_pc s x := mk_u (u_buf s) (u_fly s) (u_flag s) (u_chk s) (u_ld s) (u_post s) x (u_ready s) (u_open s) (u_win s) (u_res s) (u_tm s).
Definition set_buf s x := mk_u x (u_fly s) (u_flag s) (u_chk s) (u_ld s) (u_post s) (u_pc s) (u_ready s) (u_open s) (u_win s) (u_res s) (u_tm s).
Definition set_fly s x := mk_u (u_buf s) x (u_flag s) (u_chk s) (u_ld s) (u_post s) (u_pc s) (u_ready s) (u_open s) (u_win s) (u_res s) (u_tm s).
Definition set_flag s x := mk_u (u_buf s) (u_fly s) x (u_chk s) (u_ld s) (u_post s) (u_pc s) (u_ready s) (u_open s) (u_win s) (u_res s) (u_tm s).
Definition set_chk s x := mk_u (u_buf s) (u_fly s) (u_flag s) x (u_ld s) (u_post s) (u_pc s) (u_ready s) (u_open s) (u_win s) (u_res s) (u_tm s).
Definition set_ld s x := mk_u (u_buf s) (u_fly s) (u_flag s) (u_chk s) x (u_post s) (u_pc s) (u_ready s) (u_open s) (u_win s) (u_res s) (u_tm s).
Definition set_post s x := mk_u (u_buf s) (u_fly s) (u_flag s) (u_chk s) (u_ld s) x (u_pc s) (u_ready s) (u_open s) (u_win s) (u_res s) (u_tm s).
Definition set_res s x := mk_u (u_buf s) (u_fly s) (u_flag s) (u_chk s) (u_ld s) (u_post s) (u_pc s) (u_ready s) (u_open s) (u_win s) x (u_tm s).
Definition set_tm s x := mk_u (u_buf s) (u_fly s) (u_flag s) (u_chk s) (u_ld s) (u_post s) (u_pc s) (u_ready s) (u_open s) (u_win s) (u_res s) x.
Definition set_win s x := mk_u (u_buf s) (u_fly s) (u_flag s) (u_chk s) (u_ld s) (u_post s) (u_pc s) (u_ready s) (u_open s) x (u_res s) (u_tm s).
Definition set_open s x := mk_u (u_buf s) (u_fly s) (u_flag s) (u_chk s) (u_ld s) (u_post s) (u_pc s) (u_ready s) x (u_win s) (u_res s) (u_tm s).

(** the strand's next operation *)
Definition ustrand (cc : bool) (s : ust) : option (ust * list uev) :=
  match u_pc s with
  | UIdle => None
  | UDo b => if negb b && u_flag s then Some (set_pc s UIdle, [])
             else Some (set_pc (if b then s else set_flag s true) UTake, [])
  | UTake =>
      if cc && negb (u_win s) then Some (set_pc s USet1, [])
      else match u_buf s with
           | [] => Some (set_pc s UClr, [])
           | m :: q => Some (set_pc (set_fly (set_buf s q) (u_fly s ++ [m])) UIdle, [EvStart m])
           end
  | USet1 => Some (set_pc (set_tm s (ft_set1 (u_tm s))) USet2, [])
  | USet2 => Some (set_pc (set_tm s (ft_set2 (u_tm s))) UIdle, [])
  | UClr => Some (set_pc (set_flag s false) UEmp, [])
  | UEmp => Some (set_pc s (match u_buf s with [] => UIdle | _ => UDo false end), [])
  | UErr => Some (set_pc (set_flag s false) UIdle, [])
  end.

(** [cc]: a connected reliable socket with a KCP control block, so check_send_cc applies *)
Definition ustep (cc : bool) (s : ust) (a : uact) : option (ust * list uev) :=
  match a with
  | AEnq p m => Some (set_chk (set_buf s (if p then m :: u_buf s else u_buf s ++ [m])) (S (u_chk s)), [EvQueued p m])
  | AReady => match u_chk s with O => None | S n => Some ((if u_ready s then set_ld (set_chk s n) (S (u_ld s)) else set_chk s n), []) end
  | ALoad => match u_ld s with O => None | S n => Some ((if u_flag s then set_ld s n else set_post (set_ld s n) (S (u_post s))), []) end
  | ARun => match u_pc s, u_post s with UIdle, S n => Some (set_pc (set_post s n) (UDo false), []) | _, _ => None end
  | AStrand => ustrand cc s
  | ADone k r =>
      match u_pc s, nth_error (u_fly s) k, r with
      | UIdle, Some m, RFatal => if u_open s then None else Some (set_pc (set_fly s (remove_at k (u_fly s))) UErr, [EvDone m r])
      | UIdle, Some m, _ => Some (set_pc (set_fly s (remove_at k (u_fly s))) (UDo true), [EvDone m r])
      | _, _, _ => None
      end
  | ARes => match u_res s with
            | O => None
            | S n => Some (match u_buf s with [] => set_res s n | _ => set_chk (set_res s n) (S (u_chk s)) end, [])
            end
  | AWin b => Some (set_win s b, [])
  | AExpire => match ft_expire (u_tm s) with Some f => Some (set_tm s f, []) | None => None end
  | ABegin k =>
      match ft_begin (u_tm s) k (negb (u_win s)) with
      | Some (f, called) => Some (if called && u_win s then set_res (set_flag (set_tm s f) false) (S (u_res s)) else set_tm s f, [])
      | None => None
      end
  | AStep j => match ft_step (u_tm s) j with Some f => Some (set_tm s f, []) | None => None end
  | AClose => if u_open s then Some (set_tm (set_open s false) (ft_stop (u_tm s)), []) else None
  | AStopT => if u_open s then None else Some (set_tm s (ft_stop (u_tm s)), [])
  | AStart =>
      match u_open s, u_pc s, u_fly s, u_post s, u_res s, ft_quiet (u_tm s) with
      | false, UIdle, [], O, O, true =>
          Some (mk_u (u_buf s) (u_fly s) (u_flag s) (S (u_chk s)) (u_ld s) (u_post s) (u_pc s) true true true (u_res s) (u_tm s), [])
      | _, _, _, _, _, _ => None
      end
  end.

Fixpoint usteps (cc : bool) (s : ust) (l : list uact) : option (ust * list uev) :=
  match l with
  | [] => Some (s, [])
  | a :: l' =>
    match ustep cc s a with
    | None => None
    | Some (s1, t1) => match usteps cc s1 l' with None => None | Some (s2, t2) => Some (s2, t1 ++ t2) end
    end
  end.
