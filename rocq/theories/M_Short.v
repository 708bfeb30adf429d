(** The short links of the example program client: for each message a link is added, told not to connect again, and given the message.

    Source: client/client.cpp:53-80 (short_client, method 1); include/socket_service.h:79-91 (add_socket starts the link at once if the
    service runs); include/tcp/client_socket.h:120 (first_init), 125-172 (do_start, connect_handler, on_recv_error, on_close, after_close),
    185-215 (connect, prepare_next_reconnect); include/ext/callbacks.h:22 (on_connect calls what is registered), 32-34 (registering is
    two assignments without a lock).

    Simplified: the service runs and is not stopped; one link; the first connection is tried 50 ms after add_socket, here at any time;
    the server, or the network, ends links at any time; an unsent message stays in the send buffer when the link connects again (M_Wire.v);
    nobody shuts the link down locally; prepare_reconnect is the default one; a finished assignment is seen by all threads; the second
    assignment writes the value that is already there (pass_on), so that it takes no part in a collision here. *)
From Coq Require Import List Bool Arith.
Import ListNotations.

(** the thread that sends: before register_on_connect, in its first assignment, before its second one, before send_msg, done *)
Inductive cpos : Type := CAdded | CFirst | CSecond | CSend | CDone.
Inductive link : Type := LConnecting | LUp | LClosing | LGone.
Record sst : Type := mk_s {
  s_pc : cpos;
  s_cb : bool;           (* cb_on_connect.first is set; it may be from a former life of the object *)
  s_need : bool;         (* need_reconnect *)
  s_link : link;
  s_buf : bool           (* the message is in the send buffer *)
}.
Inductive sev : Type :=
| EConn                  (* a connection is established *)
| EMsg                   (* the message is sent *)
| ERace.                 (* on_connect reads the registered function while it is being assigned: undefined behaviour *)
Inductive sact : Type :=
| SCall                  (* the thread that sends goes on *)
| SUp | SRefused         (* connecting succeeds, fails *)
| SWrite                 (* the message is sent *)
| SBreak                 (* the link ends *)
| SClosed.               (* the closing timer: on_close, after_close *)

(** add_socket returned *)
Definition short0 (reused : bool) : sst := mk_s CAdded reused true LConnecting false.
Definition set_link (s : sst) (l : link) : sst := mk_s (s_pc s) (s_cb s) (s_need s) l (s_buf s).
Definition step (s : sst) (a : sact) : option (sst * list sev) :=
  match a, s_link s with
  | SCall, _ =>
      match s_pc s with
      | CAdded => Some (mk_s CFirst (s_cb s) (s_need s) (s_link s) (s_buf s), [])
      | CFirst => Some (mk_s CSecond true (s_need s) (s_link s) (s_buf s), [])
      | CSecond => Some (mk_s CSend (s_cb s) (s_need s) (s_link s) (s_buf s), [])
      | CSend => Some (mk_s CDone (s_cb s) (s_need s) (s_link s) true, [])
      | CDone => None
      end
  | SUp, LConnecting =>
      Some (mk_s (s_pc s) (s_cb s) (s_need s && negb (s_cb s)) LUp (s_buf s),
            EConn :: match s_pc s with CFirst => [ERace] | _ => [] end)
  | SRefused, LConnecting => Some (set_link s (if s_need s then LConnecting else LGone), [])
  | SWrite, LUp => if s_buf s then Some (mk_s (s_pc s) (s_cb s) (s_need s) LUp false, [EMsg]) else None
  | SBreak, LUp => Some (set_link s LClosing, [])
  | SClosed, LClosing => Some (set_link s (if s_need s then LConnecting else LGone), [])
  | _, _ => None
  end.
Fixpoint run (s : sst) (l : list sact) : option (sst * list sev) :=
  match l with
  | [] => Some (s, [])
  | a :: l' => match step s a with
               | Some (s1, e1) => match run s1 l' with Some (s2, e2) => Some (s2, e1 ++ e2) | None => None end
               | None => None
               end
  end.
