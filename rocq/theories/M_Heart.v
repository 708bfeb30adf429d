(** The heartbeat of a TCP link on a time line.

    Sources: include/socket.h:179-187 (start_heartbeat), 192-210 (check_heartbeat), 322-334 (do_start);
    include/tcp/socket.h:90-99 (send_heartbeat), 352-370 (recv_handler: last_recv_time), 410-414 (send_handler: last_send_time);
    include/tcp/client_socket.h:154, include/tcp/server_socket.h:65 (on_heartbeat_error: force_shutdown, return false).

    Time is in milliseconds; time(NULL) is the wall clock in whole seconds, which may be adjusted; timers are not affected by
    adjustments. A timer is never early and at most [late] ms late; handing data to the kernel takes at most [slow] ms. Only the
    life of one link after do_start is modelled: after a drop or a shutdown nothing happens. The packer has a non-empty
    heartbeat (include/base.h:235, i_packer::pack_heartbeat leaves it empty by default). Receiving means that recv_handler is
    called, so bytes of a message that is not complete do not count where the unpacker waits for the whole message. int arithmetic does not overflow:
    interval * max_absence and interval * 1000 are below 2^31. ST_ASIO_ALWAYS_SEND_HEARTBEAT is not defined. *)
From Coq Require Import List ZArith Bool.
Import ListNotations.
Open Scope Z_scope.

Record hcfg : Type := mk_hcfg { hc_int : Z; hc_max : Z; hc_late : Z; hc_slow : Z }.
Definition hc_ok (c : hcfg) : Prop := 0 < hc_int c /\ 0 < hc_max c /\ 0 <= hc_late c /\ 0 <= hc_slow c /\ hc_int c * hc_max c < 2 ^ 31 /\ hc_int c * 1000 < 2 ^ 31.

Record hst : Type := mk_h {
  h_t : Z;              (* the time of the last event *)
  h_off : Z;            (* wall clock minus real time *)
  h_recv : Z;           (* stat.last_recv_time, seconds *)
  h_send : Z;           (* stat.last_send_time, seconds; 0: never *)
  h_ready : bool;       (* is_ready() *)
  h_busy : option Z;    (* sending = 1, since when *)
  h_due : Z             (* when TIMER_HEARTBEAT_CHECK expires *)
}.
(** time(NULL) *)
Definition wall (off t : Z) : Z := (t + off) / 1000.
(** do_start at [t], include/socket.h:322-334 *)
Definition h0 (c : hcfg) (t off : Z) : hst := mk_h t off (wall off t) 0 true None (t + hc_int c * 1000).

Inductive hin : Type :=
| HRecv           (* recv_handler with some bytes *)
| HSend           (* the application's message is taken by do_send_msg *)
| HSent           (* send_handler without error *)
| HCheck          (* TIMER_HEARTBEAT_CHECK's handler *)
| HDown           (* the link is shut down *)
| HTick           (* nothing *)
| HAdjust (z : Z) (* somebody sets the clock *).
Inductive hout : Type := ORecv | OSend | OSent | OBeat | ODrop | ODown.

(** check_heartbeat, include/socket.h:192-210 *)
Definition check (c : hcfg) (s : hst) (t : Z) : hst * list (Z * hout) :=
  let now := wall (h_off s) t in
  if (0 <? h_recv s) && h_ready s then
    if hc_int c * hc_max c <=? now - h_recv s then (mk_h t (h_off s) (h_recv s) (h_send s) false (h_busy s) (h_due s), [(t, ODrop)])
    else match h_busy s with
         | None => if hc_int c <=? now - h_send s then (mk_h t (h_off s) (h_recv s) (h_send s) (h_ready s) (Some t) (t + hc_int c * 1000), [(t, OBeat)])
                   else (mk_h t (h_off s) (h_recv s) (h_send s) (h_ready s) None (t + hc_int c * 1000), [])
         | Some b => (mk_h t (h_off s) (h_recv s) (h_send s) (h_ready s) (Some b) (t + hc_int c * 1000), [])
         end
  else (mk_h t (h_off s) (h_recv s) (h_send s) (h_ready s) (h_busy s) (t + hc_int c * 1000), []).

Definition hstep (c : hcfg) (s : hst) (x : Z * hin) : option (hst * list (Z * hout)) :=
  let '(t, e) := x in
  if h_ready s && (h_t s <=? t) && (t <=? h_due s + hc_late c) && match h_busy s with Some b => t <=? b + hc_slow c | None => true end then
    match e with
    | HRecv => Some (mk_h t (h_off s) (wall (h_off s) t) (h_send s) (h_ready s) (h_busy s) (h_due s), [(t, ORecv)])
    | HSend => match h_busy s with
               | None => Some (mk_h t (h_off s) (h_recv s) (h_send s) (h_ready s) (Some t) (h_due s), [(t, OSend)])
               | Some _ => None
               end
    | HSent => match h_busy s with
               | Some _ => Some (mk_h t (h_off s) (h_recv s) (wall (h_off s) t) (h_ready s) None (h_due s), [(t, OSent)])
               | None => None
               end
    | HCheck => if h_due s <=? t then Some (check c s t) else None
    | HDown => Some (mk_h t (h_off s) (h_recv s) (h_send s) false (h_busy s) (h_due s), [(t, ODown)])
    | HTick => Some (mk_h t (h_off s) (h_recv s) (h_send s) (h_ready s) (h_busy s) (h_due s), [])
    | HAdjust z => Some (mk_h t (h_off s + z) (h_recv s) (h_send s) (h_ready s) (h_busy s) (h_due s), [])
    end
  else None.
Fixpoint hsteps (c : hcfg) (s : hst) (l : list (Z * hin)) : option (hst * list (Z * hout)) :=
  match l with
  | [] => Some (s, [])
  | x :: l' => match hstep c s x with
               | None => None
               | Some (s1, t1) => match hsteps c s1 l' with None => None | Some (s2, t2) => Some (s2, t1 ++ t2) end
               end
  end.
