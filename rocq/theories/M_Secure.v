(** A TLS or web socket link (client or server), from start() to on_close: include/tcp/ssl/ssl.h:27-179, include/tcp/websocket/websocket.h:91-246 on
    top of include/tcp/socket.h:79-112 (status), 230-248 (requests, monitoring, do_start), 273-282 (on_close), 299-327 (_force_shutdown, shutdown),
    462-481 (shutdown_handler), include/tcp/client_socket.h:90-116, 125-146, 152-172, 194-216 and include/socket.h:149-162, 428-467, 786-809.

    The plain TCP link is in M_Link, whose steps are finer; here every handler and every call of the application is one step.
    Simplifications: a connection that is made just when the link is being closed is left to M_Link; the attempts to connect are one operation, which is repeated as long as that is wished; ST_ASIO_DELAY_CLOSE = 0; the
    service is running. Of the libraries below (OpenSSL through asio, Beast) this is assumed: an operation of a socket that was shut down or closed
    fails; when Beast's async_close has completed, reads fail (its stream is closed); Beast gives up a silent peer's handshake (its suggested
    timeouts, Boost 1.70 and later), asio's TLS stream does not. *)
From Coq Require Import List Bool Arith.
Import ListNotations.

Inductive layer : Type := TLS | WS.
Record cfg : Type := mk_cfg { c_layer : layer; c_client : bool; c_passive : bool (* ST_ASIO_PASSIVE_RECV *) }.
(** include/tcp/socket.h:79 *)
Inductive link : Type := CONNECTED | FORCE | GRACEFUL | BROKEN | HANDSHAKING.
(** the handshake: none; in progress; completed, its handler not yet run *)
Inductive hs : Type := HNone | HWait | HDone (ok : bool).
(** what is queued in the strand: _force_shutdown; async_shutdown (ssl.h:49-54) or the lambda of shutdown_websocket (websocket.h:107-120) *)
Inductive post : Type := OForce | OShutdown.
Record qst : Type := mk_q {
  q_status : link;
  q_started : bool;
  q_closing : bool;        (* TIMER_DELAY_CLOSE is running *)
  q_need : bool;           (* need_reconnect; false for a server *)
  q_conn : bool;           (* connecting is in progress, or TIMER_CONNECT or TIMER_CONNECT_DELAY runs *)
  q_hs : hs;
  q_read : bool;           (* a read is in progress *)
  q_resume : bool;         (* TIMER_CHECK_RECV is running: the receiving buffer was full *)
  q_mon : bool;            (* TIMER_ASYNC_SHUTDOWN is running *)
  q_sd : bool;             (* async_shutdown or async_close is in progress *)
  q_posts : list post;
  q_up : bool }.           (* the connection can be used, neither side has ended it *)
Definition q0 (need : bool) : qst := mk_q BROKEN false false need false HNone false false false false [] false.

Inductive ev : Type :=
| EWish (b : bool)         (* the application says whether to reconnect *)
| EStart
| EHandshake (ok : bool)   (* on_handshake *)
| EConnect                 (* on_connect *)
| ERead                    (* a read starts *)
| EForced                  (* on_async_shutdown_error *)
| EShut                    (* close() was successful *)
| EClose (again : bool).   (* on_close, and whether after_close starts again *)
Inductive act : Type :=
| QStart                   (* the application calls start() *)
| QReq (again : bool)      (* ... disconnect, force_shutdown or graceful_shutdown, which are the same here *)
| QNeed (b : bool)         (* ... set_reconnect *)
| QAsk                     (* ... recv_msg, with ST_ASIO_PASSIVE_RECV *)
| QConn (ok : bool)        (* connecting succeeds or fails *)
| QHand (ok : bool)        (* the peer completes the handshake, or makes it fail *)
| QHandEnd                 (* the handshake fails because the socket was shut down, or of Beast's timeout *)
| QHandled                 (* handle_handshake *)
| QPeer                    (* the peer or the network ends the connection *)
| QFill                    (* a read brings data: the buffer is full now, or receiving is passive *)
| QResume                  (* TIMER_CHECK_RECV: there is room again *)
| QErr                     (* a read fails: recv_handler, on_recv_error *)
| QRun                     (* the strand takes what is queued *)
| QSdDone                  (* async_shutdown, async_close complete *)
| QMon                     (* TIMER_ASYNC_SHUTDOWN *)
| QOnClose.                (* TIMER_DELAY_CLOSE finds no calls in progress *)

Definition set_status s x := mk_q x (q_started s) (q_closing s) (q_need s) (q_conn s) (q_hs s) (q_read s) (q_resume s) (q_mon s) (q_sd s) (q_posts s) (q_up s).
Definition set_need s x := mk_q (q_status s) (q_started s) (q_closing s) x (q_conn s) (q_hs s) (q_read s) (q_resume s) (q_mon s) (q_sd s) (q_posts s) (q_up s).
Definition set_conn s x := mk_q (q_status s) (q_started s) (q_closing s) (q_need s) x (q_hs s) (q_read s) (q_resume s) (q_mon s) (q_sd s) (q_posts s) (q_up s).
Definition set_hs s x := mk_q (q_status s) (q_started s) (q_closing s) (q_need s) (q_conn s) x (q_read s) (q_resume s) (q_mon s) (q_sd s) (q_posts s) (q_up s).
Definition set_read s x y := mk_q (q_status s) (q_started s) (q_closing s) (q_need s) (q_conn s) (q_hs s) x y (q_mon s) (q_sd s) (q_posts s) (q_up s).
Definition set_mon s x := mk_q (q_status s) (q_started s) (q_closing s) (q_need s) (q_conn s) (q_hs s) (q_read s) (q_resume s) x (q_sd s) (q_posts s) (q_up s).
Definition set_sd s x := mk_q (q_status s) (q_started s) (q_closing s) (q_need s) (q_conn s) (q_hs s) (q_read s) (q_resume s) (q_mon s) x (q_posts s) (q_up s).
Definition set_posts s x := mk_q (q_status s) (q_started s) (q_closing s) (q_need s) (q_conn s) (q_hs s) (q_read s) (q_resume s) (q_mon s) (q_sd s) x (q_up s).
Definition set_up s x := mk_q (q_status s) (q_started s) (q_closing s) (q_need s) (q_conn s) (q_hs s) (q_read s) (q_resume s) (q_mon s) (q_sd s) (q_posts s) x.
Definition set_run s x y := mk_q (q_status s) x y (q_need s) (q_conn s) (q_hs s) (q_read s) (q_resume s) (q_mon s) (q_sd s) (q_posts s) (q_up s).

Definition is_connected (s : qst) : bool := match q_status s with CONNECTED => true | _ => false end.
Definition is_broken (s : qst) : bool := match q_status s with BROKEN => true | _ => false end.
Definition add_post (s : qst) (p : post) : qst := set_posts s (q_posts s ++ [p]).
(** asynchronous calls that keep on_close waiting; timers are stopped by close() and by TIMER_DELAY_CLOSE, socket.h:443, 793 *)
Definition calls (s : qst) : bool :=
  q_conn s || match q_hs s with HNone => false | _ => true end || q_read s || q_sd s || match q_posts s with [] => false | _ => true end.

(** start(), socket.h:150-162: a client connects (client_socket.h:125-129), a server begins the handshake (ssl.h:160-166, websocket.h:216-232) *)
Definition start (c : cfg) (s : qst) : qst * list ev :=
  if negb (q_started s) && negb (q_closing s) then
    let s := set_run s true false in
    if c_client c then (set_conn s true, [EStart]) else (set_up (set_hs (set_status s HANDSHAKING) HWait) true, [EStart])
  else (s, []).
(** close(), socket.h:428-467 *)
Definition close (s : qst) : qst * list ev :=
  if q_started s then (set_up (set_mon (set_read (set_run s false true) (q_read s) false) false) false, [EShut]) else (s, []).
(** _force_shutdown, tcp/socket.h:299, and shutdown, 318-327 *)
Definition do_force (s : qst) : qst * list ev :=
  match q_status s with
  | FORCE => (s, [])
  | BROKEN => close s
  | _ => close (set_status s FORCE)
  end.
(** force_shutdown of the TCP classes, client_socket.h:91-101, server_socket.h:39-45 *)
Definition tcp_force (c : cfg) (s : qst) (again : bool) : qst * list ev :=
  let s := if c_client c then set_need s again else s in
  if c_client c && again && is_broken s && negb (q_started s) then start c s else (add_post s OForce, []).
(** force_shutdown, graceful_shutdown and disconnect of ssl.h:80-92, 155-157 and websocket.h:142-154, 211-213 *)
Definition request (c : cfg) (s : qst) (again : bool) : qst * list ev :=
  if is_connected s then (add_post (set_status (if c_client c then set_need s again else s) GRACEFUL) OShutdown, [])
  else tcp_force c s again.
(** the first read of a link, tcp/socket.h:329-343 (without ST_ASIO_SYNC_RECV); recv_msg *)
Definition read (s : qst) : qst * list ev := if q_read s then (s, []) else (set_read s true (q_resume s), [ERead]).

Definition step (c : cfg) (s : qst) (a : act) : option (qst * list ev) :=
  match a with
  | QStart => Some (start c s)
  | QReq again => let '(s1, e) := request c s again in Some (s1, if c_client c then EWish again :: e else e)
  | QNeed b => if c_client c then Some (set_need s b, [EWish b]) else None
  | QAsk => if c_passive c then if is_connected s then Some (read s) else Some (s, []) else None
  | QConn ok =>
      if negb (q_conn s) then None
      else if ok then if q_started s then Some (set_up (set_hs (set_status (set_conn s false) HANDSHAKING) HWait) true, []) else None   (* ssl.h:102-112 *)
      else if q_need s && q_started s then Some (s, [])                                          (* tried again, client_socket.h:196-211 *)
      else Some (add_post (set_conn s false) OForce, [])                                       (* client_socket.h:214-215 *)
  | QHand ok => match q_hs s with HWait => if q_up s then Some (set_hs s (HDone ok), []) else None | _ => None end
  | QHandEnd => match q_hs s with
                | HWait => if negb (q_up s) || match c_layer c with WS => true | TLS => false end then Some (set_hs s (HDone false), []) else None
                | _ => None
                end
  | QHandled =>
      match q_hs s with
      | HDone true => let '(s1, e) := read (set_status (set_hs s HNone) CONNECTED) in Some (s1, EHandshake true :: EConnect :: e)   (* ssl.h:117, 174 *)
      | HDone false => let '(s1, e) := request c (set_hs s HNone) false in Some (s1, EHandshake false :: e)   (* ssl.h:117, 174; server.h:139-149 *)
      | _ => None
      end
  | QPeer => if q_up s then Some (set_up s false, []) else None
  | QFill => if q_read s && q_up s then Some (set_read s false (negb (c_passive c)), []) else None
  | QResume => if q_resume s then let '(s1, e) := read (set_read s (q_read s) false) in Some (s1, e) else None
  | QErr =>
      if q_read s && negb (q_up s) then
        let s := set_read s false (q_resume s) in
        let s := match c_layer c with TLS => set_mon s false | WS => s end in                   (* ssl.h:44 *)
        if c_client c && q_need s && is_broken s && negb (q_started s) then Some (start c s)      (* client_socket.h:152, 95 *)
        else Some (do_force s)
      else None
  | QRun =>
      match q_posts s with
      | OForce :: l => Some (do_force (set_posts s l))
      | OShutdown :: l => Some (set_sd (set_mon (set_posts s l) true) true, [])
      | [] => None
      end
  | QSdDone =>
      if q_sd s then
        match c_layer c with
        | TLS => Some (set_sd s false, [])                                                    (* ssl.h:57 *)
        | WS => Some (set_up (set_mon (set_sd s false) false) false, [])                         (* websocket.h:113-119 *)
        end
      else None
  | QMon =>
      if q_mon s then
        match q_status s with
        | GRACEFUL => let '(s1, e) := tcp_force c (set_mon s false) (q_need s) in Some (s1, EForced :: e)
        | _ => Some (set_mon s false, [])
        end
      else None
  | QOnClose =>
      if q_closing s && negb (calls s) then
        let s := set_mon (set_read (set_up (set_status (set_run s (q_started s) false) BROKEN) false) (q_read s) false) false in
        if c_client c && q_need s then let '(s1, e) := start c s in Some (s1, EClose true :: e) else Some (s, [EClose false])
      else None
  end.
Fixpoint run (c : cfg) (s : qst) (l : list act) : option (qst * list ev) :=
  match l with
  | [] => Some (s, [])
  | a :: l' => match step c s a with
               | Some (s1, e1) => match run c s1 l' with Some (s2, e2) => Some (s2, e1 ++ e2) | None => None end
               | None => None
               end
  end.
