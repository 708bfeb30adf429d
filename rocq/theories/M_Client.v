(** The thread of the example program client that receives synchronously, beside the main thread, which stops and restarts the service.

    Source: client/client.cpp:119-134 (sync_recv_thread), 171-193 (main: start, the commands quit, restart and reconnect);
    include/socket.h:149-162 (start), 282-304 (sync_recv_msg), 428-467 (close), 681-690 (sync_recv_waiting); include/socket.h:453-458 and
    include/tcp/client_socket.h:172 (after_close connects again); include/service_pump.h:401-411 (do_service makes the io_context usable again).

    Simplified: one link, which connects again whenever it was closed (the default); stop_service is one step, after which the io_context
    is stopped and the link closed; start_service is one step; who gets a message while a call waits is modelled in M_SyncRecv.v, here the
    waiting call gets it; one message at a time; finished stores are seen by all threads. *)
From Coq Require Import List Bool Arith.
Import ListNotations.

(** the receiving thread: about to call sync_recv_msg, inside it, finished *)
Inductive thr : Type := TCall | TWait | TEnd.
(** the main thread: in its loop, in t.join() after stop_service (of restart or of quit), before start_service, finished *)
Inductive mpos : Type := MLoop | MJoin (restart : bool) | MStart | MEnd.
Record cst : Type := mk_c {
  c_run : bool;         (* the io_context is not stopped *)
  c_started : bool;     (* the link is started: connecting or connected *)
  c_thr : thr;
  c_main : mpos
}.
Inductive cev : Type :=
| ESync                 (* the receiving thread gets a message *)
| EHandler              (* on_msg_handle gets a message *)
| EEnds.                (* "sync recv end." *)
Inductive cact : Type :=
| AStop (restart : bool) | AJoined | AStart  (* the main thread *)
| ACall | ATimeout | AWake                   (* the receiving thread calls; its 50 ms are over; it sees that the link was closed *)
| AMsg                                       (* a message arrives *)
| ABreak | AAgain.                           (* the link is closed, for example by the server or the command reconnect; it is started again *)

(** after the first start_service and the creation of the thread *)
Definition client0 : cst := mk_c true true TCall MLoop.
Definition with_thr (s : cst) (t : thr) : cst := mk_c (c_run s) (c_started s) t (c_main s).
Definition step (s : cst) (a : cact) : option (cst * list cev) :=
  match a with
  | AStop r => match c_main s with MLoop => Some (mk_c false false (c_thr s) (MJoin r), []) | _ => None end
  | AJoined =>
      match c_main s, c_thr s with
      | MJoin true, TEnd => Some (mk_c (c_run s) (c_started s) TCall MStart, [])    (* client.cpp:187: the new thread comes first *)
      | MJoin false, TEnd => Some (mk_c (c_run s) (c_started s) TEnd MEnd, [])
      | _, _ => None
      end
  | AStart => match c_main s with MStart => Some (mk_c true true (c_thr s) MLoop, []) | _ => None end
  | ACall =>
      match c_thr s with
      | TCall => if c_run s && c_started s then Some (with_thr s TWait, []) else Some (with_thr s TEnd, [EEnds])
      | _ => None
      end
  | ATimeout => match c_thr s with TWait => if c_started s then Some (with_thr s TCall, []) else None | _ => None end
  | AWake => match c_thr s with TWait => if c_started s then None else Some (with_thr s TEnd, [EEnds]) | _ => None end
  | AMsg =>
      if c_run s && c_started s
      then match c_thr s with TWait => Some (with_thr s TCall, [ESync]) | _ => Some (s, [EHandler]) end
      else None
  | ABreak => if c_run s && c_started s then Some (mk_c (c_run s) false (c_thr s) (c_main s), []) else None
  | AAgain => if c_run s && negb (c_started s) then Some (mk_c (c_run s) true (c_thr s) (c_main s), []) else None
  end.
Fixpoint run (s : cst) (l : list cact) : option (cst * list cev) :=
  match l with
  | [] => Some (s, [])
  | a :: l' => match step s a with
               | Some (s1, e1) => match run s1 l' with Some (s2, e2) => Some (s2, e1 ++ e2) | None => None end
               | None => None
               end
  end.
