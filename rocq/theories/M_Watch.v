(** A link of concurrent_client (concurrent_client/concurrent_client.cpp:31-100): one message goes back and forth between client and
    server, and the link is given up when the server takes longer than max_delay.

    Times are milliseconds. [w_late]: how late a timer's handler may run. Simplified: the check and what follows it take no time; what
    arrives on a link that has been given up is left out (handle_msg puts it into the send buffer of a closed socket). *)
From Coq Require Import List ZArith Bool.
Import ListNotations.
Open Scope Z_scope.

Record wcfg : Type := mk_wc { w_max : Z; w_late : Z }.
(** [w_due]: when TIMER_END expires; [w_gone]: force_shutdown() without reconnecting *)
Record wst : Type := mk_w { w_now : Z; w_conn : bool; w_last : Z; w_due : option Z; w_gone : bool }.
Definition watch0 : wst := mk_w 0 false 0 None false.
Inductive wact : Type :=
| WTime (t : Z)      (* it becomes t *)
| WConnect           (* connected, or connected again *)
| WBack              (* the message comes back *)
| WTimer             (* TIMER_END *)
| WBreak.            (* the link is broken by the server or the network *)
Inductive wev : Type :=
| EConn (t : Z)      (* connected, the message is sent *)
| EAgain (t : Z)     (* the message came back and is sent again *)
| ECut (t : Z)       (* the link is given up *)
| EBroke (t : Z).

(** the interval of TIMER_END, line 67 *)
Definition every : Z := 5000.
(** check_delay, lines 38-53: the condition *)
Definition too_late (c : wcfg) (s : wst) : bool := w_conn s && (w_max c <? w_now s - w_last s).
(** force_shutdown: the socket is closed, its timers end (include/socket.h:428-463) and it does not connect again
    (include/tcp/client_socket.h:91-102) *)
Definition cut (s : wst) : wst := mk_w (w_now s) false (w_last s) None true.

Definition wstep (c : wcfg) (s : wst) (a : wact) : option (wst * list wev) :=
  match a with
  | WTime t => if (w_now s <=? t) && match w_due s with Some d => t <=? d + w_late c | None => true end
               then Some (mk_w t (w_conn s) (w_last s) (w_due s) (w_gone s), []) else None
  | WConnect =>                                                             (* 55-70 *)
      if w_conn s || w_gone s then None
      else Some (mk_w (w_now s) true (w_now s) (Some (w_now s + every)) false, [EConn (w_now s)])
  | WBack =>                                                                (* 93 *)
      if w_conn s then
        if too_late c s then Some (cut s, [ECut (w_now s)])
        else Some (mk_w (w_now s) true (w_now s) (w_due s) (w_gone s), [EAgain (w_now s)])
      else None
  | WTimer =>                                                               (* 67 *)
      match w_due s with
      | Some d => if d <=? w_now s then
                    if too_late c s then Some (cut s, [ECut (w_now s)])
                    else Some (mk_w (w_now s) (w_conn s) (w_last s) (Some (w_now s + every)) (w_gone s), [])
                  else None
      | None => None
      end
  | WBreak => if w_conn s then Some (mk_w (w_now s) false (w_last s) None (w_gone s), [EBroke (w_now s)]) else None
  end.
Fixpoint wrun (c : wcfg) (s : wst) (l : list wact) : option (wst * list wev) :=
  match l with
  | [] => Some (s, [])
  | a :: l' => match wstep c s a with
               | Some (s1, e1) => match wrun c s1 l' with Some (s2, e2) => Some (s2, e1 ++ e2) | None => None end
               | None => None
               end
  end.
