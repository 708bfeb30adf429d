(** The named links of the program socket_management: a map from names to client sockets beside the object pool.

    Sources: socket_management/client.h:23-24 (name), 37 (on_recv_error), 49-72 (add_link), 74-79 (find_link), 81-94
    (find_and_remove_link), 96-100 (shutdown_link), 102-107 (send_msg), 111-115 (del_link); socket_management/socket_management.cpp:6-9
    (objects are used again, no reconnecting), 66-83 (commands); include/tcp/client_socket.h:91-101 (force_shutdown), 131-146
    (connect_handler), 150-154 (callbacks), 156-168 (on_close), 194-216 (prepare_next_reconnect); include/tcp/socket.h:347-382
    (recv_handler), 301-327; include/object_pool.h:62-71 (add_object), 269-280 (only objects nobody points to are used again).

    Simplifications: the bodies under link_map_mutex are single steps, the calls after it (force_shutdown, send_msg) belong to the same
    step; on_recv_error (del_link, then force_shutdown) is one step; the service pump runs and objects can be created. A socket is
    its id: an object that is used again has another id, and an object in the map is not used again because the map points to it. What a
    socket does with a message is the subject of the other models; here only which socket gets it. *)
From Coq Require Import List Bool Arith.
From Verif Require Import M_Bytes.
Import ListNotations.
Open Scope nat_scope.

(** a client socket: connecting; connecting, though force_shutdown was called; the link is up and a read is in progress; shut down by
    this side while the read has not failed yet; over *)
Inductive phase : Type := PConn | PConnShut | PUp | PShut | POver.
Record sock : Type := mk_sk { sk_id : nat; sk_name : nat; sk_ph : phase }.
Record nst : Type := mk_n { n_map : list (nat * nat); n_socks : list sock; n_cur : nat }.   (* link_map: name, id; sockets; cur_id *)
Definition n0 : nst := mk_n [] [] 0.

Inductive nev : Type :=
| VAdd (n : nat) (r : option nat)                      (* add_link returns; the id of the new link or nothing *)
| VDel (n : nat) (r : option nat)                      (* shutdown_link returns; the id of the link that is shut down *)
| VSend (n : nat) (m : list byte) (r : option nat)     (* send_msg(name, msg); the id of the link that gets the message *)
| VFull                                                (* add_link was refused by the pool *)
| VUp (i : nat)                                        (* on_connect *)
| VOver (i : nat).                                     (* the link is over: on_recv_error, or the connection could not be made *)
Inductive nact : Type :=
| NAdd (n : nat) (room : bool)     (* room: fewer than ST_ASIO_MAX_OBJECT_NUM sockets *)
| NDel (n : nat) | NSend (n : nat) (m : list byte)
| NConn (i : nat) (ok : bool)      (* the connecting operation of socket i ends *)
| NBreak (i : nat)                 (* heartbeat or unpacking error: the socket shuts itself down *)
| NErr (i : nat).                  (* the read of socket i fails *)

(** std::map::find, erase *)
Fixpoint find (n : nat) (l : list (nat * nat)) : option nat :=
  match l with [] => None | (x, i) :: l' => if x =? n then Some i else find n l' end.
Definition erase (n : nat) (l : list (nat * nat)) : list (nat * nat) := filter (fun p => negb (fst p =? n)) l.

Fixpoint get (i : nat) (l : list sock) : option sock :=
  match l with [] => None | x :: l' => if sk_id x =? i then Some x else get i l' end.
Definition put (i : nat) (p : phase) (l : list sock) : list sock :=
  map (fun x => if sk_id x =? i then mk_sk i (sk_name x) p else x) l.
(** force_shutdown() of a socket of each phase; a socket that is over stays so *)
Definition shut (p : phase) : phase := match p with PConn => PConnShut | PUp => PShut | x => x end.

Definition nstep (s : nst) (a : nact) : option (nst * list nev) :=
  match a with
  | NAdd n room =>                 (* client.h:49-72 *)
      match find n (n_map s) with
      | Some _ => Some (s, [VAdd n None])
      | None =>
          let i := S (n_cur s) in
          if room then Some (mk_n ((n, i) :: n_map s) (n_socks s ++ [mk_sk i n PConn]) i, [VAdd n (Some i)])
          else Some (mk_n (n_map s) (n_socks s) i, [VFull])
      end
  | NDel n =>                      (* client.h:81-100 *)
      match find n (n_map s) with
      | None => Some (s, [VDel n None])
      | Some i =>
          match get i (n_socks s) with
          | None => None
          | Some k => Some (mk_n (erase n (n_map s)) (put i (shut (sk_ph k)) (n_socks s)) (n_cur s), [VDel n (Some i)])
          end
      end
  | NSend n m => Some (s, [VSend n m (find n (n_map s))])
  | NConn i ok =>
      match get i (n_socks s) with
      | Some k =>
          match sk_ph k with
          | PConn => if ok then Some (mk_n (n_map s) (put i PUp (n_socks s)) (n_cur s), [VUp i]) else Some (mk_n (n_map s) (put i POver (n_socks s)) (n_cur s), [VOver i])
          | PConnShut => if ok then Some (mk_n (n_map s) (put i PShut (n_socks s)) (n_cur s), [VUp i]) else Some (mk_n (n_map s) (put i POver (n_socks s)) (n_cur s), [VOver i])
          | _ => None
          end
      | None => None
      end
  | NBreak i =>
      match get i (n_socks s) with
      | Some k => match sk_ph k with PUp => Some (mk_n (n_map s) (put i PShut (n_socks s)) (n_cur s), []) | _ => None end
      | None => None
      end
  | NErr i =>                      (* client.h:37, 111-115 *)
      match get i (n_socks s) with
      | Some k =>
          match sk_ph k with
          | PUp | PShut => Some (mk_n (erase (sk_name k) (n_map s)) (put i POver (n_socks s)) (n_cur s), [VOver i])
          | _ => None
          end
      | None => None
      end
  end.
Fixpoint nrun (s : nst) (l : list nact) : option (nst * list nev) :=
  match l with
  | [] => Some (s, [])
  | a :: l' => match nstep s a with
               | None => None
               | Some (s1, t1) => match nrun s1 l' with None => None | Some (s2, t2) => Some (s2, t1 ++ t2) end
               end
  end.
