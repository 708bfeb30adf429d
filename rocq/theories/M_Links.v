(** The sockets of one service (a server, or a multi client) while the service pump is started and stopped by one thread, while
    any number of threads add sockets and accept connections: include/socket_service.h:58-63, 79-91, include/tcp/server.h:197, 202-203,
    228-240, 251-264, include/tcp/client.h:89, 94, include/object_pool.h:62-86, 114, 354, include/service_pump.h:33-34, 272-279, 311-321, 401-428.

    object_can_mutex is a shared mutex: do_something_to_all holds it shared, adding and deleting need it alone.
    Simplifications: a socket is a number, used once; that its start is idempotent and that a forced shutdown ends in on_close, which deletes
    it from the pool, is shown for one socket in M_Life and M_Link, here these are [SUp], [SDown], [SOver]; clients do not
    reconnect after the shutdown (uninit passes false); the refusal of add_object is open. *)
From Coq Require Import List Bool Arith.
Import ListNotations.

(** a socket: created; started; being shut down; on_close was called *)
Inductive sst : Type := SNew | SUp | SDown | SOver.
(** a thread in add_socket: before add_object; before is_service_started; before start() *)
Inductive aph : Type := A0 | A1 | A2.
Record adder : Type := mk_a { a_sock : nat; a_ph : aph; a_mine : bool (* in accept_handler, i.e. in a service thread *) }.
(** what the thread that starts and stops the pump does with this service *)
Inductive phase : Type :=
| POff                      (* the service is not started *)
| PStart (l : list nat)     (* in init, do_something_to_all(start) is at l *)
| PUp
| PStop                     (* in stop_service/end_service before the loop of uninit *)
| PShut (l : list nat)      (* in uninit, do_something_to_all(force_shutdown) is at l *)
| PWait.                    (* joining the threads *)
Record lst : Type := mk_l {
  l_pump : bool;            (* service_pump::started *)
  l_phase : phase;
  l_listen : bool;          (* the acceptor is open *)
  l_can : list nat;         (* object_can *)
  l_sock : nat -> sst;
  l_ids : list nat;         (* all sockets add_socket was called for *)
  l_adders : list adder }.
Definition links0 : lst := mk_l false POff false [] (fun _ => SNew) [] [].

Inductive act : Type :=
| LPump                     (* service_pump::start_service, up to and including started = true, 401 *)
| LInit                     (* the service is started: by do_something_to_all, 410, or by start_service(i_service_, ...) *)
| LEach                     (* do_something_to_all goes on *)
| LStop                     (* stop_service begins: end_service reaches this service *)
| LLoop                     (* uninit begins its loop *)
| LJoin                     (* all service threads have ended, 418, and the service is finalised, 421-423 *)
| LAdd (x : nat)            (* the application calls add_socket(x) *)
| LAccept (x : nat)         (* a connection is accepted on socket x; accept_handler is queued *)
| LGo (i : nat) (ok : bool) (* adder i goes on; ok: add_object has room and no conflict *)
| LPeer (x : nat)           (* the peer ends the link *)
| LClosed (x : nat).        (* on_close of a socket that is shut down; it leaves the pool *)
Inductive ev : Type :=
| EAdded (x : nat)          (* add_socket returned true *)
| ERun (x : nat) | EShut (x : nat) (* asked to shut down by uninit *) | EDone (x : nat) | EPumpEnd.

Definition upd (f : nat -> sst) (x : nat) (v : sst) : nat -> sst := fun y => if y =? x then v else f y.
Definition locked (s : lst) : bool := match l_phase s with PStart _ | PShut _ => true | _ => false end.
(** start() of a socket: nothing happens unless it is fresh or closed completely, include/socket.h:152 *)
Definition start (s : lst) (x : nat) : lst * list ev :=
  match l_sock s x with
  | SNew | SOver => (mk_l (l_pump s) (l_phase s) (l_listen s) (l_can s) (upd (l_sock s) x SUp) (l_ids s) (l_adders s), [ERun x])
  | _ => (s, [])
  end.
(** force_shutdown() of a socket *)
Definition shut (s : lst) (x : nat) : lst := match l_sock s x with SUp => mk_l (l_pump s) (l_phase s) (l_listen s) (l_can s) (upd (l_sock s) x SDown) (l_ids s) (l_adders s) | _ => s end.
Definition set_phase (s : lst) (p : phase) : lst := mk_l (l_pump s) p (l_listen s) (l_can s) (l_sock s) (l_ids s) (l_adders s).
Definition set_adders (s : lst) (l : list adder) : lst := mk_l (l_pump s) (l_phase s) (l_listen s) (l_can s) (l_sock s) (l_ids s) l.
Definition set_can (s : lst) (l : list nat) : lst := mk_l (l_pump s) (l_phase s) (l_listen s) l (l_sock s) (l_ids s) (l_adders s).
Fixpoint put (i : nat) (g : option adder) (l : list adder) : list adder :=
  match i, l with
  | _, [] => []
  | O, _ :: l' => match g with Some x => x :: l' | None => l' end
  | S i', x :: l' => x :: put i' g l'
  end.
Definition fresh (s : lst) (x : nat) : bool := negb (existsb (Nat.eqb x) (l_ids s)).
(** the socket has operations in progress, so that io_context::run does not return *)
Definition busy (s : lst) (x : nat) : bool := match l_sock s x with SUp | SDown => true | _ => false end.
(** io_context::run returns when nothing is in progress: no socket and no accept_handler *)
Definition quiet (s : lst) : bool := forallb (fun x => negb (busy s x)) (l_ids s) && forallb (fun a => negb (a_mine a)) (l_adders s).
(** add_socket begins *)
Definition enter (s : lst) (x : nat) (mine : bool) : lst := mk_l (l_pump s) (l_phase s) (l_listen s) (l_can s) (l_sock s) (x :: l_ids s) (l_adders s ++ [mk_a x A0 mine]).

(** [srv]: the service is a server *)
Definition step (srv : bool) (s : lst) (a : act) : option (lst * list ev) :=
  match a with
  | LPump => if l_pump s then None else Some (mk_l true (l_phase s) (l_listen s) (l_can s) (l_sock s) (l_ids s) (l_adders s), [])
  | LInit =>
      match l_phase s with
      | POff => if negb (l_pump s) then None
                else if srv then Some (mk_l true PUp true (l_can s) (l_sock s) (l_ids s) (l_adders s), [])   (* start_listen, server.h:202 *)
                else Some (set_phase s (PStart (l_can s)), [])                                     (* socket_service.h:60 *)
      | _ => None
      end
  | LEach =>
      match l_phase s with
      | PStart (x :: l) => Some (start (set_phase s (PStart l)) x)
      | PStart [] => Some (set_phase s PUp, [])
      | PShut (x :: l) => Some (shut (set_phase s (PShut l)) x, [EShut x])
      | PShut [] => Some (set_phase s PWait, [])
      | _ => None
      end
  | LStop =>
      match l_phase s with
      | PUp => Some (mk_l (l_pump s) PStop false (l_can s) (l_sock s) (l_ids s) (l_adders s), [])            (* stop_listen, server.h:203 *)
      | POff => if l_pump s then Some (set_phase s PWait, []) else None                            (* service_pump.h:34: not started, no uninit *)
      | _ => None
      end
  | LLoop => match l_phase s with PStop => Some (set_phase s (PShut (l_can s)), []) | _ => None end
  | LJoin =>
      match l_phase s with
      | PWait => if quiet s then Some (mk_l false POff false [] (l_sock s) (l_ids s) (l_adders s), [EPumpEnd]) else None
      | _ => None
      end
  | LAdd x => if negb srv && fresh s x then Some (enter s x false, []) else None
  | LAccept x => if srv && l_listen s && fresh s x then Some (enter s x true, []) else None
  | LGo i ok =>
      match nth_error (l_adders s) i with
      | Some (mk_a x A0 m) => if locked s then None
                              else if ok then Some (set_can (set_adders s (put i (Some (mk_a x A1 m)) (l_adders s))) (l_can s ++ [x]), [])
                              else Some (set_adders s (put i None (l_adders s)), [])
      | Some (mk_a x A1 m) => if l_pump s then Some (set_adders s (put i (Some (mk_a x A2 m)) (l_adders s)), [])
                              else Some (set_adders s (put i None (l_adders s)), [EAdded x])
      | Some (mk_a x A2 m) => let '(s1, e) := start (set_adders s (put i None (l_adders s))) x in Some (s1, e ++ [EAdded x])
      | None => None
      end
  | LPeer x => match l_sock s x with SUp => Some (mk_l (l_pump s) (l_phase s) (l_listen s) (l_can s) (upd (l_sock s) x SDown) (l_ids s) (l_adders s), []) | _ => None end
  | LClosed x =>
      match l_sock s x with
      | SDown => if locked s then None
                 else Some (mk_l (l_pump s) (l_phase s) (l_listen s) (remove Nat.eq_dec x (l_can s)) (upd (l_sock s) x SOver) (l_ids s) (l_adders s), [EDone x])
      | _ => None
      end
  end.
Fixpoint run (srv : bool) (s : lst) (l : list act) : option (lst * list ev) :=
  match l with
  | [] => Some (s, [])
  | a :: l' => match step srv s a with
               | Some (s1, e1) => match run srv s1 l' with Some (s2, e2) => Some (s2, e1 ++ e2) | None => None end
               | None => None
               end
  end.
