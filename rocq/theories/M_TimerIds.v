(** The timer ids of the classes derived from class timer. A class takes its ids from TIMER_BEGIN = TIMER_END of
    its base class on and sets its own TIMER_END ("your own timer ids must begin from X::TIMER_END",
    include/timer.h:24). tid is unsigned short (include/timer.h:52). *)
From Coq Require Import List NArith.
Import ListNotations.
Open Scope N_scope.

(** offsets of a class's ids from its TIMER_BEGIN, and TIMER_END - TIMER_BEGIN *)
Record layer : Type := mk_layer { offsets : list N; width : N }.

(** class timer: TIMER_END = 0, include/timer.h:53 *)
Definition timer_end : N := 0.

(** the ids a chain of classes uses; values of unsigned short *)
Fixpoint chain_ids (begin : N) (ls : list layer) : list N :=
  match ls with
  | [] => []
  | l :: ls' => map (fun o => (begin + o) mod 65536) (offsets l) ++ chain_ids ((begin + width l) mod 65536) ls'
  end.

Definition socket_layer : layer := mk_layer [0; 1; 2; 3] 10.   (* include/socket.h:31-36 *)
Definition tcp_layer : layer := mk_layer [0] 5.                (* include/tcp/socket.h:85-87 *)
Definition client_layer : layer := mk_layer [0; 1] 5.          (* include/tcp/client_socket.h:26-29 *)
Definition reliable_layer : layer := mk_layer [0; 1] 5.        (* include/udp/reliable_socket.h:31-34; udp::socket has none of its own *)
Definition pool_layer : layer := mk_layer [0; 1] 10.           (* include/object_pool.h:38-41 *)
