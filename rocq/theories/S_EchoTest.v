(** What the performance test should do. *)
From Coq Require Import List NArith Arith.
Import ListNotations.

(** one execution of several threads, each doing its list of sends in order *)
Inductive runs {A} : list (list A) -> list A -> Prop :=
| runs_end ps : Forall (fun p => p = []) ps -> runs ps []
| runs_step ps1 a p ps2 t : runs (ps1 ++ p :: ps2) t -> runs (ps1 ++ (a :: p) :: ps2) (a :: t).

(** the messages sent over link [l] *)
Definition over (l : nat) (t : list (nat * nat)) : list nat := map snd (filter (fun e => fst e =? l) t).
(** sizes differ by at most one *)
Definition even (gs : list (list nat)) : Prop := forall g h, In g gs -> In h gs -> length g <= S (length h).
(** bytes of all messages of a test: [n] links, [num] messages of [len] bytes over each *)
Definition all_bytes (n num len : N) : N := (n * num * len)%N.
