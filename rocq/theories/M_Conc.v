(** Accepting in concurrent_server (concurrent_server/concurrent_server.cpp:63-78) on top of accept_handler (include/tcp/server.h:251-264):
    ST_ASIO_ASYNC_ACCEPT_NUM accepts are started at first; start_next_accept is overridden and starts another one only if at most ten of them
    can be left.

    Simplifications: accepting does not fail and the server is not stopped (for both see M_Listen, C49, C71); sockets can be created. *)
From Coq Require Import List Arith Bool.
Import ListNotations.

(** [d_num]: ST_ASIO_ASYNC_ACCEPT_NUM (1024); [d_margin]: 10; [d_max]: ST_ASIO_MAX_OBJECT_NUM *)
Record dcfg : Type := mk_d { d_num : nat; d_margin : nat; d_max : nat }.
(** accepts that wait for a connection; accept_handlers between add_socket and start_next_accept; links in the pool *)
Record dst : Type := mk_ds { d_pend : nat; d_deciding : nat; d_alive : nat }.
Inductive dact : Type := DAccept | DDecide | DClose.
Inductive dev : Type := DAccepted (kept : bool) | DClosed.

Definition dstep (c : dcfg) (s : dst) (a : dact) : option (dst * list dev) :=
  match a with
  | DAccept =>      (* a client connects; accept_handler: add_socket (add_object refuses when the pool is full, include/object_pool.h:62-70) *)
      match d_pend s with
      | O => None
      | S p => if d_alive s <? d_max c then Some (mk_ds p (S (d_deciding s)) (S (d_alive s)), [DAccepted true])
               else Some (mk_ds p (S (d_deciding s)) (d_alive s), [DAccepted false])
      end
  | DDecide =>      (* start_next_accept *)
      match d_deciding s with
      | O => None
      | S k => Some (mk_ds (if d_num c <=? d_alive s + d_margin c then S (d_pend s) else d_pend s) k (d_alive s), [])
      end
  | DClose =>       (* a link ends and is removed from the pool *)
      match d_alive s with O => None | S n => Some (mk_ds (d_pend s) (d_deciding s) n, [DClosed]) end
  end.
Fixpoint drun (c : dcfg) (s : dst) (l : list dact) : option (dst * list dev) :=
  match l with
  | [] => Some (s, [])
  | a :: l' => match dstep c s a with
               | None => None
               | Some (s1, e1) => match drun c s1 l' with None => None | Some (s2, e2) => Some (s2, e1 ++ e2) end
               end
  end.
(** start_listen: include/tcp/server.h:99-123 *)
Definition d0 (c : dcfg) : dst := mk_ds (d_num c) 0 0.
