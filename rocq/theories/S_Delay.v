(** What ST_ASIO_DELAY_CLOSE greater than zero is required to give. *)
From Coq Require Import List NArith Bool.
From Verif Require Import M_Delay.
Import ListNotations.
Open Scope N_scope.

(** the life of a socket as its events show it *)
Inductive phase : Type := New | Up | Down (t : N) (run : bool) | Gone (t : N).  (* [Gone]: with the time at which the link went down *)
(** starting, closing and on_close come in turns, on_close not before [D] seconds after the closing, unless the service was not running then *)
Definition turn (D : N) (p : option phase) (e : dev) : option phase :=
  match p, e with
  | Some New, DStarted _ | Some (Gone _), DStarted _ => Some Up
  | Some Up, DClosed t r => Some (Down t r)
  | Some (Down t r), DOnClose u => if negb r || (t + D * 1000 <=? u) then Some (Gone t) else None
  | Some (Gone _), DReset _ => Some New
  | Some New, DReset _ => Some New
  | _, _ => None
  end.
Definition lives (D : N) (tr : list dev) : option phase := fold_left (turn D) tr (Some New).
(** every start but the first is that of an object that was reset for its next use *)
Definition used (o : option bool) (e : dev) : option bool :=
  match e, o with
  | DStarted _, Some false => Some true
  | DStarted _, _ => None
  | DReset _, Some _ => Some false
  | _, _ => o
  end.
Definition no_restart (tr : list dev) : Prop := fold_left used tr (Some false) <> None.
Definition no_reset (tr : list dev) : Prop := forall t, ~ In (DReset t) tr.
