(** The heartbeat of a UDP socket on a time line.

    Sources: include/socket.h:179-210 (start_heartbeat, check_heartbeat), 322-334 (do_start); include/udp/socket.h:65-70 (send_heartbeat), 221-226
    (on_heartbeat_error: the silence is reported, counted from now on again, and the socket goes on), 297-328 (recv_handler: last_recv_time), 330-357
    (do_send_msg), 359-395 (send_handler: last_send_time).

    Time as in M_Heart: milliseconds; time(NULL) is the wall clock in whole seconds, which may be adjusted; a timer is never early and at most
    [uc_late] ms late; handing a datagram to the kernel takes at most [uc_slow] ms. Only the life of one socket between do_start and closing is
    modelled; sending and receiving do not fail; the peer address is set (set_peer_addr, include/udp/socket.h:95-99); the packer has a non-empty
    heartbeat; bytes that arrive are not empty datagrams. A send call is followed at once by do_send_msg. int arithmetic does not overflow. *)
From Coq Require Import List ZArith Bool.
Import ListNotations.
Open Scope Z_scope.

(** [uc_conn]: connect_mode (ST_ASIO_UDP_CONNECT_MODE, set_connect_mode()); [uc_always]: ST_ASIO_ALWAYS_SEND_HEARTBEAT is defined *)
Record ucfg : Type := mk_ucfg { uc_int : Z; uc_max : Z; uc_late : Z; uc_slow : Z; uc_conn : bool; uc_always : bool }.
Definition uc_ok (c : ucfg) : Prop := 0 < uc_int c /\ 0 < uc_max c /\ 0 <= uc_late c /\ 0 <= uc_slow c /\ uc_int c * uc_max c < 2 ^ 31 /\ uc_int c * 1000 < 2 ^ 31.

Record ust : Type := mk_u {
  u_t : Z;                     (* the time of the last event *)
  u_off : Z;                   (* wall clock minus real time *)
  u_recv : Z;                  (* stat.last_recv_time, seconds *)
  u_send : Z;                  (* stat.last_send_time, seconds; 0: never *)
  u_busy : option (Z * bool);  (* sending = 1: since when this datagram is being sent, and whether to the peer *)
  u_queue : list bool;         (* send_buffer: to the peer or to somebody else *)
  u_due : Z                    (* when TIMER_HEARTBEAT_CHECK expires *)
}.
(** time(NULL) *)
Definition uwall (off t : Z) : Z := (t + off) / 1000.
(** do_start at [t], include/socket.h:322-334 *)
Definition u0 (c : ucfg) (t off : Z) : ust := mk_u t off (uwall off t) 0 None [] (t + uc_int c * 1000).

(** [peer]: from or to the peer address; otherwise somebody else *)
Inductive uin : Type :=
| URecv (peer : bool)   (* recv_handler *)
| USend (peer : bool)   (* the application sends a message *)
| USent                 (* send_handler *)
| UCheck                (* TIMER_HEARTBEAT_CHECK's handler *)
| UTick                 (* nothing *)
| UAdjust (z : Z)       (* somebody sets the clock *).
Inductive uout : Type := VRecv (peer : bool) | VSent (peer : bool) | VBeat | VWarn.

(** queue a message; if nobody sends, do_send_msg takes it (include/socket.h:538-577, 176) *)
Definition push (s : ust) (t : Z) (d : bool) : ust :=
  match u_busy s with
  | None => mk_u t (u_off s) (u_recv s) (u_send s) (Some (t, d)) (u_queue s) (u_due s)
  | Some b => mk_u t (u_off s) (u_recv s) (u_send s) (Some b) (u_queue s ++ [d]) (u_due s)
  end.
Definition is_sending (s : ust) : bool := match u_busy s with Some _ => true | None => false end.

(** check_heartbeat, include/socket.h:192-210, with on_heartbeat_error and send_heartbeat of UDP; the timer goes on *)
Definition ucheck (c : ucfg) (s : ust) (t : Z) : ust * list (Z * uout) :=
  let now := uwall (u_off s) t in
  let again s := mk_u t (u_off s) (u_recv s) (u_send s) (u_busy s) (u_queue s) (t + uc_int c * 1000) in
  if 0 <? u_recv s then
    let warn := uc_int c * uc_max c <=? now - u_recv s in
    let s1 := if warn then mk_u t (u_off s) now (u_send s) (u_busy s) (u_queue s) (u_due s) else s in
    let w := if warn then [(t, VWarn)] else [] in
    if uc_always c || ((uc_int c <=? now - u_send s1) && negb (is_sending s1)) then (again (push s1 t true), w ++ [(t, VBeat)])
    else (again s1, w)
  else (again s, []).

Definition ustep (c : ucfg) (s : ust) (x : Z * uin) : option (ust * list (Z * uout)) :=
  let '(t, e) := x in
  if (u_t s <=? t) && (t <=? u_due s + uc_late c) && match u_busy s with Some (b, _) => t <=? b + uc_slow c | None => true end then
    match e with
    | URecv p => if uc_conn c && negb p then None      (* the kernel drops what does not come from the peer *)
                 else Some (mk_u t (u_off s) (uwall (u_off s) t) (u_send s) (u_busy s) (u_queue s) (u_due s), [(t, VRecv p)])
    | USend p => Some (push s t (uc_conn c || p), [])  (* async_send does not look at the message's address, include/udp/socket.h:347 *)
    | USent => match u_busy s with
               | Some (_, d) =>
                   Some (match u_queue s with
                         | [] => mk_u t (u_off s) (u_recv s) (uwall (u_off s) t) None [] (u_due s)
                         | d' :: q => mk_u t (u_off s) (u_recv s) (uwall (u_off s) t) (Some (t, d')) q (u_due s)
                         end, [(t, VSent d)])
               | None => None
               end
    | UCheck => if u_due s <=? t then Some (ucheck c s t) else None
    | UTick => Some (mk_u t (u_off s) (u_recv s) (u_send s) (u_busy s) (u_queue s) (u_due s), [])
    | UAdjust z => Some (mk_u t (u_off s + z) (u_recv s) (u_send s) (u_busy s) (u_queue s) (u_due s), [])
    end
  else None.
Fixpoint usteps (c : ucfg) (s : ust) (l : list (Z * uin)) : option (ust * list (Z * uout)) :=
  match l with
  | [] => Some (s, [])
  | x :: l' => match ustep c s x with
               | None => None
               | Some (s1, t1) => match usteps c s1 l' with None => None | Some (s2, t2) => Some (s2, t1 ++ t2) end
               end
  end.
