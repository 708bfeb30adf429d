(** The performance test of echo_client (echo_client/echo_client.cpp:70-80, 242-404): how the links are divided among the sending threads,
    what each thread sends, when the test is reported as finished.

    [W] is the number of values of size_t. Links are numbers. A division by zero and an index outside a vector are outcomes of their own.
    Simplifications: safe_send_msg always hands the message over (C58, C62), sleeping is left out, texts are not printed. *)
From Coq Require Import List NArith Arith Bool.
Import ListNotations.

Inductive tout (A : Type) : Type := Fine (a : A) | DivByZero | BadIndex.
Arguments Fine {A} a. Arguments DivByZero {A}. Arguments BadIndex {A}.

(** the references given to group_links by send_msg_concurrently, lines 349-354 *)
Record gst : Type := mk_g { g_groups : list (list nat); g_index : N; g_this : N; g_left : N }.

(** link_groups[k].emplace_back(link) *)
Fixpoint add_to (k : nat) (x : nat) (gs : list (list nat)) : option (list (list nat)) :=
  match gs, k with
  | [], _ => None
  | g :: r, O => Some ((g ++ [x]) :: r)
  | g :: r, S k' => match add_to k' x r with Some r' => Some (g :: r') | None => None end
  end.

(** group_links, lines 319-336 *)
Definition group_link (W per : N) (s : gst) (x : nat) : tout gst :=
  let s1 := if (g_this s =? 0)%N
            then if (0 <? g_left s)%N then mk_g (g_groups s) ((g_index s + 1) mod W)%N ((per + 1) mod W)%N (g_left s - 1)%N
                 else mk_g (g_groups s) ((g_index s + 1) mod W)%N per (g_left s)
            else s in
  match add_to (N.to_nat (g_index s1)) x (g_groups s1) with
  | Some gs => Fine (mk_g gs (g_index s1) ((g_this s1 + W - 1) mod W)%N (g_left s1))
  | None => BadIndex
  end.
Fixpoint visit (W per : N) (s : gst) (ls : list nat) : tout gst :=
  match ls with [] => Fine s | x :: r => match group_link W per s x with Fine s1 => visit W per s1 r | o => o end end.

(** send_msg_concurrently, lines 339-354: [counted] is client.size(), [ls] the links that do_something_to_all visits *)
Definition groups (W threads : N) (counted : nat) (ls : list nat) : tout (list (list nat)) :=
  let n := N.of_nat counted in
  let gn := N.min threads n in
  if (gn =? 0)%N then DivByZero
  else match visit W (n / gn) (mk_g (repeat [] (N.to_nat gn)) (W - 1) 0 (n - gn * (n / gn))) ls with
       | Fine s => Fine (g_groups s)
       | DivByZero => DivByZero
       | BadIndex => BadIndex
       end.

(** thread_runtine, lines 305-317: message i is sent over every link of the group, then message i + 1; a send is (link, number in the message) *)
Definition thread_sends (group : list nat) (num : nat) : list (nat * nat) := concat (map (fun i => map (fun l => (l, i)) group) (seq 0 num)).

(** total_msg_bytes: lines 346-347 (send_msg_concurrently), 245 (send_msg_one_by_one), 272 (send_msg_randomly) *)
Definition total_conc (W n num len : N) : N := ((n * len) mod W * num) mod 2^64.
Definition total_one (W n num len : N) : N := (num * len * n) mod W.
Definition total_rand (W num len : N) : N := (num * len) mod W.
(** lines 255, 285, 368: new_percent; and the test of the loops in lines 262 and 374 *)
Definition percent (recv total : N) : tout N := if (total =? 0)%N then DivByZero else Fine (((100 * recv) mod 2^64 / total) mod 2^32)%N.
Definition finished (recv total : N) : tout bool := match percent recv total with Fine p => Fine (100 <=? p)%N | DivByZero => DivByZero | BadIndex => BadIndex end.

(** TCP_RANDOM_SEND_MSG, lines 72-79: the index of the link that is used; [rmax] is RAND_MAX *)
Definition random_index (W rmax r : N) (n : nat) : N := ((r * ((N.of_nat n + W - 1) mod W)) mod 2^64 / rmax) mod W.
(** at(index), include/object_pool.h:225-230 *)
Definition random_link (W rmax r : N) (ls : list nat) : option nat := nth_error ls (N.to_nat (random_index W rmax r (length ls))).
