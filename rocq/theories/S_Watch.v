(** What concurrent_client is to do with a slow server, in terms of what can be seen of one link. *)
From Coq Require Import List ZArith Bool.
From Verif Require Import M_Watch.
Import ListNotations.
Open Scope Z_scope.

(** the link: down, up with the message sent at a time, given up *)
Inductive view : Type := Down | Up (sent : Z) | Over.
(** one event; None: it should not have happened *)
Definition judge1 (max : Z) (v : view) (e : wev) : option view :=
  match e, v with
  | EConn t, Down => Some (Up t)
  | EAgain t, Up u => if t - u <=? max then Some (Up t) else None
  | ECut t, Up u => if max <? t - u then Some Over else None
  | EBroke _, Up _ => Some Down
  | _, _ => None
  end.
Fixpoint judge (max : Z) (v : view) (t : list wev) : option view :=
  match t with [] => Some v | e :: t' => match judge1 max v e with Some v1 => judge max v1 t' | None => None end end.
