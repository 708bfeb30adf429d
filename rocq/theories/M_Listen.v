(** generic_server: start_listen, stop_listen, accept_handler, start_next_accept, include/tcp/server.h:81-127, 206,
    213-222, 251-266, with the acceptor, any number of threads and every result the operating system may give.

    Simplifications: assertions are compiled out (NDEBUG; otherwise a failure ends the program); set_option (90)
    has no influence; what on_accept and add_socket (256-257) do is in M_Pool. *)
From Coq Require Import List NArith Bool Arith.
Import ListNotations.

(** boost::asio::ip::tcp::acceptor *)
Inductive acc_st : Type := AClosed | AOpen | ABound | AListen.
(** an asynchronous accept on its way *)
Inductive stage : Type :=
| SPend                    (* waiting for a connection *)
| SOk                      (* got one, accept_handler not yet called *)
| SErr (aborted : bool)    (* failed (aborted: error::operation_aborted), accept_handler not yet called *)
| SNext.                   (* accept_handler decided to call start_next_accept, 260 or 263 *)
Record lsrv : Type := mk_l { lflag : bool; acc : acc_st; pipe : list stage }.

(** results of the operating system for one start_listen *)
Record outcome : Type := mk_out { open_ok : bool; bind_ok : bool; created : nat; listen_ok : bool }.

Inductive lact : Type :=
| LStart (o : outcome)          (* start_listen; created: how many sockets could be created, 102-110 *)
| LStop                         (* stop_listen *)
| LOk (k : nat)                 (* the operating system completes accept k *)
| LErr (k : nat)                (* ... with an error *)
| LHandle (k : nat) (go_on : bool)   (* accept_handler of accept k; go_on: on_accept_error was overridden and returns true *)
| LNext (k : nat) (ok : bool).  (* start_next_accept; ok: the socket could be created *)

(** stop_listen, 127: pending accepts are cancelled *)
Definition stop_listen (s : lsrv) : lsrv :=
  mk_l false AClosed (map (fun g => match g with SPend => SErr true | _ => g end) (pipe s)).

(** start_listen, 81-125: its result and the server *)
Definition start_listen (s : lsrv) (o : outcome) : bool * lsrv :=
  if lflag s then (false, s)                                                           (* 84-85 *)
  else
    let a1 := match acc s with AClosed => if open_ok o then AOpen else AClosed | a => a end in   (* 88 *)
    let bound := bind_ok o && match a1 with AOpen => true | _ => false end in          (* 92: only an open, unbound acceptor *)
    if negb bound then (false, mk_l false a1 (pipe s))                                 (* 93 *)
    else if listen_ok o then (true, mk_l true AListen (pipe s ++ repeat SPend (created o)))   (* 123 *)
    else (false, mk_l true ABound (pipe s)).                                           (* 94, 121 *)

Fixpoint put (k : nat) (g : option stage) (l : list stage) : list stage :=
  match k, l with
  | _, [] => []
  | O, _ :: l' => match g with Some x => x :: l' | None => l' end
  | S k', x :: l' => x :: put k' g l'
  end.
Definition with_pipe (s : lsrv) (l : list stage) : lsrv := mk_l (lflag s) (acc s) l.

Definition lstep (s : lsrv) (a : lact) : option (lsrv * list bool) :=
  match a with
  | LStart o => let '(r, s1) := start_listen s o in Some (s1, [r])
  | LStop => Some (stop_listen s, [])
  | LOk k => match nth_error (pipe s) k, acc s with
             | Some SPend, AListen => Some (with_pipe s (put k (Some SOk) (pipe s)), [])
             | _, _ => None
             end
  | LErr k => match nth_error (pipe s) k with Some SPend => Some (with_pipe s (put k (Some (SErr false)) (pipe s)), []) | _ => None end
  | LHandle k go_on =>
      match nth_error (pipe s) k with
      | Some SOk => Some (with_pipe s (put k (if lflag s then Some SNext else None) (pipe s)), [])      (* 259 *)
      | Some (SErr ab) =>
          if go_on then Some (with_pipe s (put k (Some SNext) (pipe s)), [])                            (* 262 *)
          else let s1 := with_pipe s (put k None (pipe s)) in Some (if ab then s1 else stop_listen s1, [])    (* 215-219 *)
      | _ => None
      end
  | LNext k ok =>
      match nth_error (pipe s) k with
      | Some SNext =>
          let g := if ok then Some (match acc s with AListen => SPend | _ => SErr false end) else None in   (* 266; bad_descriptor or invalid_argument *)
          Some (with_pipe s (put k g (pipe s)), [])
      | _ => None
      end
  end.
Fixpoint lsteps (s : lsrv) (l : list lact) : option (lsrv * list bool) :=
  match l with
  | [] => Some (s, [])
  | a :: l' => match lstep s a with
               | None => None
               | Some (s1, r1) => match lsteps s1 l' with None => None | Some (s2, r2) => Some (s2, r1 ++ r2) end
               end
  end.
Definition l0 : lsrv := mk_l false AClosed [].
