(** The link of a TCP socket (client or server): its status, shutdown requests, graceful shutdown, connecting and reconnecting, as
    a transition system of the io strand, timer handlers, completion handlers and application threads.

    Sources: include/tcp/socket.h:79-112 (status), 230-248 (requests, do_start), 273-282 (on_close), 299-327 (_force_shutdown,
    _graceful_shutdown, shutdown), 346-377 (recv_handler), 462-481 (shutdown_handler);
    include/tcp/client_socket.h:91-116 (requests), 122-146 (do_start, connect_handler), 149-172 (callbacks, on_close, after_close),
    185-216 (connect, prepare_next_reconnect); include/tcp/server_socket.h:39-74;
    include/socket.h:150-162 (start), 428-467 (close), 788-811 (TIMER_DELAY_CLOSE).

    Simplifications: start(), close() and the last part of TIMER_DELAY_CLOSE's handler are single steps here (their interleavings are
    the subject of M_Life.v); of asynchronous calls, those that matter for the link are modelled: reads, connecting, the timers and
    what is queued in the strand; a handler of TIMER_ASYNC_SHUTDOWN tests the status and restarts its timer in one step; the
    service is running; ST_ASIO_DELAY_CLOSE = 0. Callbacks are the library's (an application that overrides them calls these). *)
From Coq Require Import List ZArith Bool Arith.
Import ListNotations.
Open Scope Z_scope.

(** include/tcp/socket.h:79; HANDSHAKING is used by SSL and web sockets only *)
Inductive link : Type := CONNECTED | FORCE | GRACEFUL | BROKEN.
Definition link_eq (a b : link) : bool := match a, b with CONNECTED, CONNECTED | FORCE, FORCE | GRACEFUL, GRACEFUL | BROKEN, BROKEN => true | _, _ => false end.
(** TIMER_CONNECT: off; waiting for so many ms; its handler is about to call connect(first) *)
Inductive ctimer : Type := TOff | TArmed (first : bool) (ms : Z) | TFired (first : bool) (ms : Z).
(** a connecting operation: in progress; completed, its handler not yet run: successfully; successfully and closed since; failed *)
Inductive attempt : Type := AWait | AOk | AOkClosed | AFail.
(** TIMER_CONNECT_DELAY: off; waiting; its handler is about to call prepare_next_reconnect(); in there, about to start TIMER_CONNECT *)
Inductive dtimer : Type := DOff | DArmed | DFired | DGo (ms : Z).
(** TIMER_ASYNC_SHUTDOWN with the remaining number of calls: off; waiting; its handler is about to run; on_async_shutdown_error() read
    need_reconnect *)
Inductive stimer : Type := SOff | SArmed (n : nat) | SFired (n : nat) | SErr (wish : bool).
(** a request queued in the strand *)
Inductive sreq : Type := RForce | RGrace.
(** the strand: idle; on_recv_error() read need_reconnect; in _force_shutdown; in shutdown(); about to close(); in _graceful_shutdown;
    about to shut down the sending direction *)
Inductive spc : Type := PIdle | PErr (wish : bool) | PForce | PShut | PClose (use_close : bool) | PGrace | PGrace2.

Record kst : Type := mk_k {
  k_started : bool;
  k_closing : bool;            (* TIMER_DELAY_CLOSE is running *)
  k_status : link;
  k_need : bool;               (* need_reconnect; false for server sockets *)
  k_conn : ctimer; k_att : list attempt; k_delay : dtimer; k_sd : stimer;
  k_reads : nat;               (* reads in progress *)
  k_link : bool;               (* the operating system's connection is usable *)
  k_posts : list sreq;
  k_pc : spc;
  k_starts : nat               (* threads about to execute start() *)
}.
Definition k0 (need : bool) : kst := mk_k false false BROKEN need TOff [] DOff SOff 0 false [] PIdle 0.

Inductive kev : Type :=
| KvWish (b : bool)     (* the application expresses its wish, or gives up in prepare_reconnect *)
| KvAsk                 (* the application calls start() *)
| KvStart               (* start() was successful *)
| KvAttempt (ms : Z)    (* a connection attempt begins, the timer having waited that long *)
| KvConnect             (* on_connect *)
| KvPrepare (ms : Z)    (* prepare_reconnect returned this *)
| KvForced              (* on_async_shutdown_error *)
| KvShut                (* close() was successful *)
| KvClose (again : bool)(* on_close, and whether after_close calls start() *).

Inductive kact : Type :=
| KReq (graceful again : bool)   (* force_shutdown / graceful_shutdown *)
| KNeed (b : bool)               (* set_reconnect *)
| KCall                          (* the application calls start() *)
| KStart                         (* start() *)
| KConnFire | KConnGo (bound : bool)   (* TIMER_CONNECT; bound: what bind() would return *)
| KAttDone (i : nat) (ok : bool) | KAttHandle (i : nat)
| KDelayFire | KDelayGo (ms : Z) | KDelaySet   (* TIMER_CONNECT_DELAY; ms: what prepare_reconnect would return *)
| KSdFire | KSdGo | KSdErr       (* TIMER_ASYNC_SHUTDOWN *)
| KPeer                          (* the peer or the network ends the connection; the read fails *)
| KAbort                         (* a read fails after the socket was closed here *)
| KErr                           (* on_recv_error goes on *)
| KRun                           (* the strand takes the next request *)
| KStrand (ok : bool)            (* the strand goes on; ok: the result of shutting down the sending direction *)
| KTick                          (* TIMER_DELAY_CLOSE finds calls in progress *)
| KOnClose.                      (* TIMER_DELAY_CLOSE finds none *)

Definition on_t (t : ctimer) : nat := match t with TOff => 0 | _ => 1 end.
Definition on_d (t : dtimer) : nat := match t with DOff => 0 | _ => 1 end.
Definition on_s (t : stimer) : nat := match t with SOff => 0 | _ => 1 end.
Definition on_p (p : spc) : nat := match p with PIdle => 0 | _ => 1 end.
(** asynchronous calls in progress besides TIMER_DELAY_CLOSE *)
Definition kcalls (s : kst) : nat := (on_t (k_conn s) + length (k_att s) + on_d (k_delay s) + on_s (k_sd s) + k_reads s + length (k_posts s) + on_p (k_pc s))%nat.

Definition set_status s x := mk_k (k_started s) (k_closing s) x (k_need s) (k_conn s) (k_att s) (k_delay s) (k_sd s) (k_reads s) (k_link s) (k_posts s) (k_pc s) (k_starts s).
Definition set_need s x := mk_k (k_started s) (k_closing s) (k_status s) x (k_conn s) (k_att s) (k_delay s) (k_sd s) (k_reads s) (k_link s) (k_posts s) (k_pc s) (k_starts s).
Definition set_conn s x := mk_k (k_started s) (k_closing s) (k_status s) (k_need s) x (k_att s) (k_delay s) (k_sd s) (k_reads s) (k_link s) (k_posts s) (k_pc s) (k_starts s).
Definition set_att s x := mk_k (k_started s) (k_closing s) (k_status s) (k_need s) (k_conn s) x (k_delay s) (k_sd s) (k_reads s) (k_link s) (k_posts s) (k_pc s) (k_starts s).
Definition set_delay s x := mk_k (k_started s) (k_closing s) (k_status s) (k_need s) (k_conn s) (k_att s) x (k_sd s) (k_reads s) (k_link s) (k_posts s) (k_pc s) (k_starts s).
Definition set_sd s x := mk_k (k_started s) (k_closing s) (k_status s) (k_need s) (k_conn s) (k_att s) (k_delay s) x (k_reads s) (k_link s) (k_posts s) (k_pc s) (k_starts s).
Definition set_reads s x := mk_k (k_started s) (k_closing s) (k_status s) (k_need s) (k_conn s) (k_att s) (k_delay s) (k_sd s) x (k_link s) (k_posts s) (k_pc s) (k_starts s).
Definition set_link s x := mk_k (k_started s) (k_closing s) (k_status s) (k_need s) (k_conn s) (k_att s) (k_delay s) (k_sd s) (k_reads s) x (k_posts s) (k_pc s) (k_starts s).
Definition set_posts s x := mk_k (k_started s) (k_closing s) (k_status s) (k_need s) (k_conn s) (k_att s) (k_delay s) (k_sd s) (k_reads s) (k_link s) x (k_pc s) (k_starts s).
Definition set_pc s x := mk_k (k_started s) (k_closing s) (k_status s) (k_need s) (k_conn s) (k_att s) (k_delay s) (k_sd s) (k_reads s) (k_link s) (k_posts s) x (k_starts s).
Definition set_starts s x := mk_k (k_started s) (k_closing s) (k_status s) (k_need s) (k_conn s) (k_att s) (k_delay s) (k_sd s) (k_reads s) (k_link s) (k_posts s) (k_pc s) x.
Definition set_run s st cl := mk_k st cl (k_status s) (k_need s) (k_conn s) (k_att s) (k_delay s) (k_sd s) (k_reads s) (k_link s) (k_posts s) (k_pc s) (k_starts s).

Fixpoint upd_at {A} (i : nat) (x : A) (l : list A) : list A := match i, l with O, _ :: l' => x :: l' | S i', y :: l' => y :: upd_at i' x l' | _, [] => [] end.
Fixpoint del_at {A} (i : nat) (l : list A) : list A := match i, l with O, _ :: l' => l' | S i', y :: l' => y :: del_at i' l' | _, [] => [] end.

(** stop_all_timer(), include/timer.h:142-147: those waiting; a handler that runs goes on *)
Definition stop_c (t : ctimer) : ctimer := match t with TArmed _ _ => TOff | t => t end.
Definition stop_d (t : dtimer) : dtimer := match t with DArmed => DOff | t => t end.
Definition stop_s (t : stimer) : stimer := match t with SArmed _ => SOff | t => t end.
Definition stop_timers (s : kst) : kst := set_sd (set_delay (set_conn s (stop_c (k_conn s))) (stop_d (k_delay s))) (stop_s (k_sd s)).
(** the socket was closed or shut down: operations in progress fail *)
Definition kill_att (a : attempt) : attempt := match a with AWait => AFail | AOk => AOkClosed | a => a end.
(** close(), include/socket.h:428-467 *)
Definition kclose (s : kst) : kst * list kev :=
  if k_started s then (set_att (set_link (stop_timers (set_run s false true)) false) (map kill_att (k_att s)), [KvShut]) else (s, []).
(** tcp's do_start, include/tcp/socket.h:241-248, and socket's, which starts reading *)
Definition kconnected (s : kst) (usable : bool) : kst := set_reads (set_link (set_status s CONNECTED) usable) (S (k_reads s)).
(** a client's force_shutdown(wish) with the wish read before, include/tcp/client_socket.h:91-101; [here] runs _force_shutdown *)
Definition kforce (cl : bool) (s : kst) (wish : bool) (here : kst -> kst) : kst :=
  if cl then let s := set_need s wish in if wish && link_eq (k_status s) BROKEN && negb (k_started s) then set_starts s (S (k_starts s)) else here s
  else here s.
Definition post (s : kst) (r : sreq) : kst := set_posts s (k_posts s ++ [r]).

(** [cl]: a client socket; [max]: ST_ASIO_GRACEFUL_SHUTDOWN_MAX_DURATION * 100 *)
Definition kstep (cl : bool) (max : nat) (s : kst) (a : kact) : option (kst * list kev) :=
  match a with
  | KReq g b =>
      let r := if g && negb (link_eq (k_status s) BROKEN) then RGrace else RForce in
      Some (kforce cl s b (fun s => post s r), if cl then [KvWish b] else [])
  | KNeed b => if cl then Some (set_need s b, [KvWish b]) else None
  | KCall => Some (set_starts s (S (k_starts s)), [KvAsk])
  | KStart =>
      match k_starts s with
      | O => None
      | S n => let s := set_starts s n in
          if negb (k_started s) && negb (k_closing s) then
            if cl then Some (set_conn (set_run s true false) (TArmed true 50), [KvStart]) else Some (kconnected (set_run s true false) true, [KvConnect; KvStart])
          else Some (s, [])
      end
  | KConnFire => match k_conn s with TArmed f ms => Some (set_conn s (TFired f ms), []) | _ => None end
  | KConnGo b =>
      match k_conn s with
      | TFired f ms => if negb f && negb b then Some (set_conn s TOff, []) else Some (set_att (set_conn s TOff) (k_att s ++ [AWait]), [KvAttempt ms])
      | _ => None
      end
  | KAttDone i ok => match nth_error (k_att s) i with Some AWait => Some (set_att s (upd_at i (if ok then AOk else AFail) (k_att s)), []) | _ => None end
  | KAttHandle i =>
      match nth_error (k_att s) i with
      | Some AOk => Some (kconnected (set_att s (del_at i (k_att s))) true, [KvConnect])
      | Some AOkClosed => Some (kconnected (set_att s (del_at i (k_att s))) false, [KvConnect])
      | Some AFail => Some (set_delay (set_att s (del_at i (k_att s))) DArmed, [])
      | _ => None
      end
  | KDelayFire => match k_delay s, k_conn s with DArmed, TOff => Some (set_delay s DFired, []) | DArmed, _ => Some (s, []) | _, _ => None end
  | KDelayGo ms =>
      match k_delay s with
      | DFired =>
          if k_need s && k_started s then
            if ms <? 0 then Some (post (set_need (set_link (set_delay s DOff) false) false) RForce, [KvPrepare ms; KvWish false])
            else Some (set_link (set_delay s (DGo ms)) false, [KvPrepare ms])
          else Some (post (set_delay s DOff) RForce, [])
      | _ => None
      end
  | KDelaySet => match k_delay s with DGo ms => Some (set_delay (set_conn s (TArmed false ms)) DOff, []) | _ => None end
  | KSdFire => match k_sd s with SArmed n => Some (set_sd s (SFired n), []) | _ => None end
  | KSdGo =>
      match k_sd s with
      | SFired n =>
          if link_eq (k_status s) GRACEFUL then
            if (1 <? n)%nat then Some (set_sd s (SArmed (n - 1)), []) else Some (set_sd s (SErr (k_need s)), [KvForced])
          else Some (set_sd s SOff, [])
      | _ => None
      end
  | KSdErr => match k_sd s with SErr w => Some (kforce cl (set_sd s SOff) w (fun s => post s RForce), []) | _ => None end
  | KPeer => match k_reads s, k_link s, k_pc s with S n, true, PIdle => Some (set_pc (set_link (set_reads s n) false) (PErr (k_need s)), []) | _, _, _ => None end
  | KAbort => match k_reads s, k_link s, k_pc s with S n, false, PIdle => Some (set_pc (set_reads s n) (PErr (k_need s)), []) | _, _, _ => None end
  | KErr => match k_pc s with PErr w => Some (kforce cl (set_pc s PIdle) w (fun s => set_pc s PForce), []) | _ => None end
  | KRun => match k_pc s, k_posts s with PIdle, r :: q => Some (set_pc (set_posts s q) (match r with RForce => PForce | RGrace => PGrace end), []) | _, _ => None end
  | KStrand ok =>
      match k_pc s with
      | PForce => Some (set_pc s (if link_eq (k_status s) FORCE then PIdle else PShut), [])
      | PShut => Some (if link_eq (k_status s) BROKEN then set_pc s (PClose true) else set_pc (set_status s FORCE) (PClose false), [])
      | PClose _ => Some (kclose (set_pc s PIdle))
      | PGrace => Some (set_pc s (if link_eq (k_status s) BROKEN then PShut else if link_eq (k_status s) CONNECTED then PGrace2 else PIdle), [])
      | PGrace2 => let s := set_status s GRACEFUL in Some (if ok then set_sd (set_pc s PIdle) (SArmed max) else set_pc s PShut, [])
      | _ => None
      end
  | KTick => if k_closing s && negb (kcalls s =? 0)%nat then Some (stop_timers s, []) else None
  | KOnClose =>
      if k_closing s && (kcalls s =? 0)%nat then
        let s := set_link (set_status (set_run s (k_started s) false) BROKEN) false in
        Some (if k_need s then set_starts s (S (k_starts s)) else s, [KvClose (k_need s)])
      else None
  end.
Fixpoint ksteps (cl : bool) (max : nat) (s : kst) (l : list kact) : option (kst * list kev) :=
  match l with
  | [] => Some (s, [])
  | a :: l' =>
    match kstep cl max s a with
    | None => None
    | Some (s1, t1) => match ksteps cl max s1 l' with None => None | Some (s2, t2) => Some (s2, t1 ++ t2) end
    end
  end.
