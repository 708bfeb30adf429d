(** Socket objects that the object pool uses again (ST_ASIO_REUSE_OBJECT): what an object keeps from its former use, and which
    addresses the sockets of multi_client and the UDP services use.

    Sources: include/socket.h:44-60 (first_init), 75-107 (reset, clear_buffer), 143 (obsoleted), 216-228 (sizes and intervals), 245
    (packer), 264-269 (direct_send_msg), 428-467 (close), 483-536 (handle_msg), 693-726 (check_receiving, handled_msg), 729-779
    (dispatching), 788-811 (end of a life); include/tcp/socket.h:81, 106, 384-460; include/tcp/client_socket.h:31-53 (set_addr), 68-69,
    72-85, 91-101, 120, 125-129, 172, 235-248; include/tcp/client.h:46-71 (add_socket); include/udp/socket.h:60-61, 80-99, 183-207,
    330-393; include/udp/socket_service.h:35-55 (add_socket); include/object_pool.h:119-128 (init_object), 181-196 (create_object),
    269-280 (invalid_object_pop).

    Simplifications: handlers are single steps; the service pump runs; a write takes the whole send buffer; the unpacker is one that cuts
    the stream behind each zero byte; binding does not fail (C37, C114); an obsolete object is not started again by the application
    (C33); the pool is not full; a build without assertions (with assertions an invalid IP address ends the program); the
    application does not look for objects among the invalid ones. *)
From Coq Require Import List Bool Arith.
From Verif Require Import M_Bytes.
Import ListNotations.
Open Scope nat_scope.

(** ** addresses *)
Record ep : Type := mk_ep { e_ip : nat; e_port : nat }.     (* 0: unspecified *)
(** the text given for an IP address: empty, a valid one, anything else *)
Inductive ipt : Type := INone | IGood (a : nat) | IBad.
(** set_addr, include/tcp/client_socket.h:31-53 *)
Definition set_addr (e : ep) (port : nat) (ip : ipt) : ep :=
  match ip with INone => mk_ep 0 port | IGood a => mk_ep a port | IBad => e end.

Inductive kind : Type := KServer | KClient | KUdp.
Record ucfg : Type := mk_u {
  u_kind : kind; u_reuse : bool;
  u_server : ep;                    (* ST_ASIO_SERVER_IP, ST_ASIO_SERVER_PORT *)
  u_reconn : bool;                  (* ST_ASIO_RECONNECT *)
  u_cmode : bool;                   (* ST_ASIO_UDP_CONNECT_MODE *)
  u_sbuf : nat; u_rbuf : nat;       (* ST_ASIO_MAX_SEND_BUF, ST_ASIO_MAX_RECV_BUF *)
  u_intv : nat                      (* ST_ASIO_MSG_HANDLING_INTERVAL *)
}.

(** ** a socket object *)
Definition pmsg : Type := nat * list byte.     (* a packed message: by which packer, content *)
Record sets : Type := mk_sets { s_sbuf : nat; s_rbuf : nat; s_intv : nat; s_pack : nat }.
Record adrs : Type := mk_adrs { a_server : ep; a_local : ep; a_peer : ep; a_cmode : bool }.
Record obj : Type := mk_o {
  o_id : nat;
  o_sets : sets;                    (* settings *)
  o_adrs : adrs;                    (* addresses *)
  o_need : bool;                    (* need_reconnect *)
  o_up : bool;                      (* the link is established (TCP); the socket is bound (UDP) *)
  o_started : bool; o_closing : bool; o_conn : bool;     (* started_; close() was called, on_close not yet; async_connect in progress *)
  o_obs : bool;                     (* obsoleted_ *)
  o_sendb : list pmsg; o_flight : list pmsg; o_sending : bool;
  o_read : bool; o_paused : bool;   (* a read is in progress; TIMER_CHECK_RECV runs *)
  o_unp : list byte;                (* what the unpacker holds *)
  o_temp : list (list byte); o_recvb : list (list byte);
  o_disp : bool; o_hold : list byte; o_posted : nat; o_timer : bool;  (* dispatching, dispatching_msg, posted do_dispatch_msg, TIMER_DISPATCH_MSG *)
  o_nsent : nat; o_nrecv : nat;     (* statistics *)
  o_in : bool; o_held : bool        (* in the pool's map; the application holds a pointer *)
}.
Definition any : ep := mk_ep 0 0.
Definition def_sets (c : ucfg) : sets := mk_sets (u_sbuf c) (u_rbuf c) (u_intv c) 0.
Definition def_adrs (c : ucfg) : adrs := mk_adrs (u_server c) any any (u_cmode c).
(** the constructors, include/socket.h:44-60, include/tcp/socket.h:81, include/tcp/client_socket.h:120, 235-240, include/udp/socket.h:60-61 *)
Definition fresh (c : ucfg) (i : nat) : obj :=
  mk_o i (def_sets c) (def_adrs c) (match u_kind c with KClient => u_reconn c | _ => false end) false false false false false
    [] [] false false false [] [] [] false [] 0 false 0 0 true true.
(** reset(), include/socket.h:75-98, include/tcp/socket.h:106, include/tcp/client_socket.h:69, include/udp/socket.h:80-86; then
    init_object, include/object_pool.h:119-128 *)
Definition reset (c : ucfg) (o : obj) (i : nat) : obj :=
  mk_o i (o_sets o) (o_adrs o) (match u_kind c with KClient => u_reconn c | _ => o_need o end) false (o_started o) (o_closing o) (o_conn o) false
    [] [] false (o_read o) false [] (o_temp o) [] false [] (o_posted o) false 0 0 true true.

(** ** what an observer sees *)
Inductive form : Type := FNone | FOne (port : nat) (ip : ipt) | FTwo (port : nat) (ip : ipt) (port2 : nat) (ip2 : ipt).
Inductive setting : Type :=
| SSend (n : nat) | SRecv (n : nat) | SIntv (n : nat) | SPack (p : nat)   (* include/socket.h:216-228, 245 *)
| SServer (port : nat) (ip : ipt) | SLocal (port : nat) (ip : ipt) | SPeer (port : nat) (ip : ipt) | SConnect.
Inductive uev : Type :=
| EAdd (i : nat) (f : form)                         (* add_socket (or an accepted connection) gives socket i *)
| ESet (i : nat) (x : setting)                      (* a setter is called *)
| EConnect (i : nat) (from to : ep)                 (* TCP: connects from an address to another one *)
| EBind (i : nat) (from : ep) (to : option ep)      (* UDP: bound to an address, connected to a peer *)
| EUp (i : nat) | EDown (i : nat)                   (* on_connect; on_close *)
| EQueued (i : nat) (m : list byte) | ERefused (i : nat) (m : list byte)   (* send_msg returns *)
| EWrite (i : nat) (ms : list pmsg) | EWritten (i : nat) (ok : bool)
| EIn (i : nat) (d : list byte)                     (* bytes arrive *)
| EHandle (i : nat) (m : list byte) (ok : bool)     (* on_msg_handle *)
| EWait (i : nat) (ms : nat)                        (* how long a refused message waits *)
| EStat (i : nat) (sent recv : nat).                (* get_statistic *)

(** ** functions *)
(** add_socket sets addresses, include/tcp/client.h:46-71, include/udp/socket_service.h:35-55; the results are ignored *)
Definition apply_form (k : kind) (f : form) (a : adrs) : adrs :=
  match k, f with
  | KClient, FOne p ip => mk_adrs (set_addr (a_server a) p ip) (a_local a) (a_peer a) (a_cmode a)
  | KClient, FTwo p ip p2 ip2 => mk_adrs (set_addr (a_server a) p ip) (set_addr (a_local a) p2 ip2) (a_peer a) (a_cmode a)
  | KUdp, FOne p ip => mk_adrs (a_server a) (set_addr (a_local a) p ip) (a_peer a) (a_cmode a)
  | KUdp, FTwo p ip p2 ip2 => mk_adrs (a_server a) (set_addr (a_local a) p ip) (set_addr (a_peer a) p2 ip2) (a_cmode a)
  | _, _ => a
  end.
(** setters of addresses *)
Definition set_adrs (x : setting) (a : adrs) : adrs :=
  match x with
  | SServer p ip => mk_adrs (set_addr (a_server a) p ip) (a_local a) (a_peer a) (a_cmode a)
  | SLocal p ip => mk_adrs (a_server a) (set_addr (a_local a) p ip) (a_peer a) (a_cmode a)
  | SPeer p ip => mk_adrs (a_server a) (a_local a) (set_addr (a_peer a) p ip) (a_cmode a)
  | SConnect => mk_adrs (a_server a) (a_local a) (a_peer a) true
  | _ => a
  end.
(** the other setters *)
Definition set_sets (x : setting) (s : sets) : sets :=
  match x with
  | SSend n => if 0 <? n then mk_sets n (s_rbuf s) (s_intv s) (s_pack s) else s
  | SRecv n => if 0 <? n then mk_sets (s_sbuf s) n (s_intv s) (s_pack s) else s
  | SIntv n => mk_sets (s_sbuf s) (s_rbuf s) n (s_pack s)
  | SPack p => mk_sets (s_sbuf s) (s_rbuf s) (s_intv s) p
  | _ => s
  end.
Definition bytes_of (l : list (list byte)) : nat := length (concat l).

(** changes of single members *)
Definition with_out (o : obj) (sendb flight : list pmsg) (sending : bool) (n : nat) : obj :=
  mk_o (o_id o) (o_sets o) (o_adrs o) (o_need o) (o_up o) (o_started o) (o_closing o) (o_conn o) (o_obs o) sendb flight sending (o_read o) (o_paused o)
    (o_unp o) (o_temp o) (o_recvb o) (o_disp o) (o_hold o) (o_posted o) (o_timer o) n (o_nrecv o) (o_in o) (o_held o).
Definition with_in (o : obj) (read paused : bool) (unp : list byte) (recvb : list (list byte)) (n : nat) : obj :=
  mk_o (o_id o) (o_sets o) (o_adrs o) (o_need o) (o_up o) (o_started o) (o_closing o) (o_conn o) (o_obs o) (o_sendb o) (o_flight o) (o_sending o) read paused
    unp [] recvb (o_disp o) (o_hold o) (o_posted o) (o_timer o) (o_nsent o) n (o_in o) (o_held o).
Definition with_disp (o : obj) (recvb : list (list byte)) (disp : bool) (hold : list byte) (posted : nat) (timer : bool) : obj :=
  mk_o (o_id o) (o_sets o) (o_adrs o) (o_need o) (o_up o) (o_started o) (o_closing o) (o_conn o) (o_obs o) (o_sendb o) (o_flight o) (o_sending o) (o_read o) (o_paused o)
    (o_unp o) (o_temp o) recvb disp hold posted timer (o_nsent o) (o_nrecv o) (o_in o) (o_held o).
Definition with_life (o : obj) (need up started closing conn obs read paused timer : bool) (unp : list byte) (inn held : bool) : obj :=
  mk_o (o_id o) (o_sets o) (o_adrs o) need up started closing conn obs (o_sendb o) (o_flight o) (o_sending o) read paused
    unp (o_temp o) (o_recvb o) (o_disp o) (o_hold o) (o_posted o) timer (o_nsent o) (o_nrecv o) inn held.
Definition with_sets (o : obj) (s : sets) (a : adrs) : obj :=
  mk_o (o_id o) s a (o_need o) (o_up o) (o_started o) (o_closing o) (o_conn o) (o_obs o) (o_sendb o) (o_flight o) (o_sending o) (o_read o) (o_paused o)
    (o_unp o) (o_temp o) (o_recvb o) (o_disp o) (o_hold o) (o_posted o) (o_timer o) (o_nsent o) (o_nrecv o) (o_in o) (o_held o).

(** send_msg(), include/socket.h:176 and do_send_msg, include/tcp/socket.h:384-408: a write is started if none is in progress *)
Definition kick (o : obj) : obj * list uev :=
  if o_up o && negb (o_sending o) && negb (length (o_sendb o) =? 0)
  then (with_out o [] (o_sendb o) true (o_nsent o), [EWrite (o_id o) (o_sendb o)]) else (o, []).
(** the link is up: do_start of the lower layers, include/socket.h:322-334 *)
Definition goes_up (o : obj) : obj * list uev :=
  let o1 := with_life o (o_need o) true true false false (o_obs o) true false (o_timer o) (o_unp o) (o_in o) (o_held o) in
  let '(o2, e) := kick o1 in (o2, EUp (o_id o) :: e).
(** the same for a connection that was made before close() while connect_handler was queued: connect_handler does not ask whether the
    socket is still started, include/tcp/client_socket.h:131-134 *)
Definition late_up (o : obj) : obj * list uev :=
  let o1 := with_life o (o_need o) true false (o_closing o) false (o_obs o) true false (o_timer o) (o_unp o) (o_in o) (o_held o) in
  let '(o2, e) := kick o1 in (o2, EUp (o_id o) :: e).
(** start(), include/socket.h:150-162, include/tcp/client_socket.h:125-129, include/udp/socket.h:183-207 *)
Definition start (c : ucfg) (o : obj) : obj * list uev :=
  match u_kind c with
  | KServer => goes_up o
  | KClient =>
      (with_life o (o_need o) false true false true (o_obs o) (o_read o) false (o_timer o) (o_unp o) (o_in o) (o_held o),
       [EConnect (o_id o) (a_local (o_adrs o)) (a_server (o_adrs o))])
  | KUdp =>
      let '(o1, e) := goes_up o in
      (o1, EBind (o_id o) (a_local (o_adrs o)) (if a_cmode (o_adrs o) then Some (a_peer (o_adrs o)) else None) :: e)
  end.

(** an unpacker that cuts the stream behind each zero byte *)
Fixpoint cut (acc d : list byte) : list (list byte) * list byte :=
  match d with
  | [] => ([], acc)
  | b :: d' => if Byte.eqb b Byte.x00 then let '(ms, r) := cut [] d' in (acc :: ms, r) else cut (acc ++ [b]) d'
  end.

(** ** steps of one object *)
Inductive oact : Type :=
| OSend (m : list byte) | OWritten (ok : bool)
| ORecv (d : list byte) | OReadErr | OResume
| ODispatch (ok : bool) | OTimer
| OConn (ok : bool)
| OClose (r : bool) | OClosed
| OSet (x : setting) | OAsk | ORelease.

(** asynchronous calls of the object that have not ended (is_async_calling), include/socket.h:143 *)
Definition busy (o : obj) : bool :=
  o_closing o || o_conn o || o_read o || o_paused o || o_timer o || (0 <? o_posted o) || (0 <? length (o_flight o)).
(** invalid_object_pop takes it: not in the map, no other pointer, obsoleted(), include/object_pool.h:273 *)
Definition reusable (o : obj) : bool := negb (o_in o) && negb (o_held o) && o_obs o && negb (o_need o) && negb (busy o).
(** close(), include/socket.h:428-467, called by shutdown(), which gives a TCP link up before (include/tcp/socket.h:316-327) *)
Definition close (k : kind) (o : obj) (need : bool) : obj :=
  with_life o need (match k with KUdp => o_up o | _ => false end) false true (o_conn o) (o_obs o) (o_read o) false false (o_unp o) (o_in o) (o_held o).

Definition ostep (c : ucfg) (o : obj) (a : oact) : option (obj * list uev) :=
  match a with
  | OSend m =>
      if o_in o || o_held o then
        if length (concat (map snd (o_sendb o))) <? s_sbuf (o_sets o)
        then let '(o1, e) := kick (with_out o (o_sendb o ++ [(s_pack (o_sets o), m)]) (o_flight o) (o_sending o) (o_nsent o)) in Some (o1, EQueued (o_id o) m :: e)
        else Some (o, [ERefused (o_id o) m])
      else None
  | OWritten ok =>       (* send_handler, include/tcp/socket.h:410-460 *)
      if 0 <? length (o_flight o) then
        if ok then
          let n := o_nsent o + length (o_flight o) in
          if 0 <? length (o_sendb o) then Some (with_out o [] (o_sendb o) true n, [EWritten (o_id o) true; EWrite (o_id o) (o_sendb o)])
          else Some (with_out o [] [] false n, [EWritten (o_id o) true])
        else Some (with_out o (o_sendb o) [] false (o_nsent o), [EWritten (o_id o) false])
      else None
  | ORecv d =>           (* recv_handler and handle_msg, include/tcp/socket.h:347-382, include/socket.h:483-536, 717-726; also when it was queued before close() *)
      if o_read o then
        let '(ms, r) := cut (o_unp o) d in
        let got := o_temp o ++ ms in
        let buf := o_recvb o ++ got in
        let more := bytes_of buf <? s_rbuf (o_sets o) in
        let o1 := with_in o more (negb more) r buf (o_nrecv o + length got) in
        Some (if (0 <? length got) && negb (o_disp o) then with_disp o1 buf (o_disp o1) (o_hold o1) (S (o_posted o1)) (o_timer o1) else o1, [EIn (o_id o) d])
      else None
  | OReadErr =>
      if o_read o then
        let o1 := with_in o false (o_paused o) (o_unp o) (o_recvb o) (o_nrecv o) in
        Some (if o_started o then close (u_kind c) o1 (o_need o) else o1, [])
      else None
  | OResume =>           (* check_receiving(true), include/socket.h:693-715 *)
      if o_paused o && (bytes_of (o_recvb o) <? s_rbuf (o_sets o)) then Some (with_in o true false (o_unp o) (o_recvb o) (o_nrecv o), []) else None
  | ODispatch ok =>      (* do_dispatch_msg, include/socket.h:755-779 *)
      match o_posted o with
      | 0 => None
      | S n =>
          match (if o_disp o then Some (o_hold o, o_recvb o) else match o_recvb o with m :: r => Some (m, r) | [] => None end) with
          | None => Some (with_disp o (o_recvb o) false (o_hold o) n (o_timer o), [])
          | Some (m, r) =>
              if ok then Some (with_disp o r false [] (S n) (o_timer o), [EHandle (o_id o) m true])
              else Some (with_disp o r true m n true, [EHandle (o_id o) m false; EWait (o_id o) (s_intv (o_sets o))])
          end
      end
  | OTimer => if o_timer o then Some (with_disp o (o_recvb o) (o_disp o) (o_hold o) (S (o_posted o)) false, []) else None
  | OConn ok =>          (* connect_handler, include/tcp/client_socket.h:131-146, 194-216 *)
      if o_conn o then
        if o_started o then
          if ok then Some (goes_up o)
          else if o_need o then Some (o, [EConnect (o_id o) (a_local (o_adrs o)) (a_server (o_adrs o))])
          else Some (close (u_kind c) (with_life o (o_need o) (o_up o) true false false (o_obs o) (o_read o) (o_paused o) (o_timer o) (o_unp o) (o_in o) (o_held o)) false, [])
        else (* close() came in between *)
          if ok then Some (late_up o)
          else Some (with_life o (o_need o) (o_up o) false (o_closing o) false (o_obs o) (o_read o) (o_paused o) (o_timer o) (o_unp o) (o_in o) (o_held o), [])
      else None
  | OClose r => if o_started o && (o_in o || o_held o) then Some (close (u_kind c) o (match u_kind c with KClient => r | _ => false end), []) else None
  | OClosed =>           (* include/socket.h:805-810, include/tcp/client_socket.h:156-172, include/udp/socket.h:228-240 *)
      if o_closing o && negb (o_conn o) && negb (o_read o) && (o_posted o =? 0) && (length (o_flight o) =? 0) then
        let o1 := with_life o (o_need o) (match u_kind c with KUdp => o_up o | _ => false end) false false false true false false false [] (o_in o && o_need o) (o_held o) in
        if o_need o then let '(o2, e) := start c o1 in Some (o2, EDown (o_id o) :: e) else Some (o1, [EDown (o_id o)])
      else None
  | OSet x => if o_in o || o_held o then Some (with_sets o (set_sets x (o_sets o)) (set_adrs x (o_adrs o)), [ESet (o_id o) x]) else None
  | OAsk => if o_in o || o_held o then Some (o, [EStat (o_id o) (o_nsent o) (o_nrecv o)]) else None
  | ORelease =>
      if o_held o then Some (with_life o (o_need o) (o_up o) (o_started o) (o_closing o) (o_conn o) (o_obs o) (o_read o) (o_paused o) (o_timer o) (o_unp o) (o_in o) false, [])
      else None
  end.

(** ** the pool *)
Record ust : Type := mk_us { us_act : list obj; us_idle : list obj; us_cur : nat }.  (* objects in use; objects that can be used again; cur_id *)
Inductive uact : Type :=
| UAdd (k : nat) (f : form)   (* a socket is created (k: which object can be used again) and started *)
| UObj (i : nat) (a : oact).  (* something happens to socket i *)

Fixpoint take_nth {A} (k : nat) (l : list A) : option (A * list A) :=
  match l, k with
  | [], _ => None
  | x :: l', 0 => Some (x, l')
  | x :: l', S k' => match take_nth k' l' with Some (y, r) => Some (y, x :: r) | None => None end
  end.
(** create_object, include/object_pool.h:181-196 *)
Definition create (c : ucfg) (k : nat) (s : ust) : option (obj * list obj) :=
  if u_reuse c then
    match us_idle s with
    | [] => Some (fresh c (S (us_cur s)), [])
    | _ => match take_nth k (us_idle s) with Some (o, r) => Some (reset c o (S (us_cur s)), r) | None => None end
    end
  else Some (fresh c (S (us_cur s)), us_idle s).
(** the object with an id, and the others before and behind it *)
Fixpoint look (i : nat) (l : list obj) : option (list obj * obj * list obj) :=
  match l with
  | [] => None
  | o :: l' => if o_id o =? i then Some ([], o, l') else match look i l' with Some (a, x, b) => Some (o :: a, x, b) | None => None end
  end.
Definition ustep (c : ucfg) (s : ust) (a : uact) : option (ust * list uev) :=
  match a with
  | UAdd k f =>
      match create c k s with
      | None => None
      | Some (o, rest) =>
          let o1 := with_sets o (o_sets o) (apply_form (u_kind c) f (o_adrs o)) in
          let '(o2, e) := start c o1 in
          Some (mk_us (us_act s ++ [o2]) rest (S (us_cur s)), EAdd (o_id o) f :: e)
      end
  | UObj i x =>
      match look i (us_act s) with
      | None => None
      | Some (l, o, r) =>
          match ostep c o x with
          | None => None
          | Some (o1, e) =>
              Some (if reusable o1 then mk_us (l ++ r) (us_idle s ++ [o1]) (us_cur s) else mk_us (l ++ o1 :: r) (us_idle s) (us_cur s), e)
          end
      end
  end.
Fixpoint urun (c : ucfg) (s : ust) (l : list uact) : option (ust * list uev) :=
  match l with
  | [] => Some (s, [])
  | a :: l' =>
    match ustep c s a with
    | None => None
    | Some (s1, t1) => match urun c s1 l' with None => None | Some (s2, t2) => Some (s2, t1 ++ t2) end
    end
  end.
Definition u0 : ust := mk_us [] [] 0.
(** the same program without reuse of objects *)
Definition no_reuse (c : ucfg) : ucfg := mk_u (u_kind c) false (u_server c) (u_reconn c) (u_cmode c) (u_sbuf c) (u_rbuf c) (u_intv c).
