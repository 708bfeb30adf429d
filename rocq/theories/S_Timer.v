(** Specification of timers, in terms of what happens to one timer (see [tev]). *)
From Coq Require Import List NArith Bool.
From Verif Require Import M_Timer.
Import ListNotations.
Open Scope N_scope.

(** the events of one timer *)
Definition of_timer (id : N) (tr : list (N * tev)) : list tev := map snd (filter (fun x => fst x =? id) tr).

(** number of starts *)
Fixpoint starts (l : list tev) : N := match l with [] => 0 | EStart _ _ _ :: l' => 1 + starts l' | _ :: l' => starts l' end.

(** The timer should be running: it was started, and since then neither stopped nor ended by its callback
    returning false for the current start. *)
Definition active_step (x : N * bool) (e : tev) : N * bool :=
  match e with
  | EStart _ _ _ => (fst x + 1, true)
  | EStop => (fst x, false)
  | ERet no false => if no =? fst x then (fst x, false) else x
  | _ => x
  end.
Definition active (l : list tev) : bool := snd (fold_left active_step l (0, false)).

(** time and interval of the last start *)
Definition last_start (l : list tev) : option (N * N) :=
  fold_left (fun x e => match e with EStart _ t i => Some (t, i) | _ => x end) l None.

(** whenever a handler decides, fewer than 256 starts have happened since the start its wait belongs to *)
Definition fresh (l : list tev) : Prop := forall a no b, l = a ++ EDone no :: b -> starts a < no + 256.
(** no expiration of the timer is queued when it is started (again) *)
Definition clean (l : list tev) : Prop :=
  forall a no t i b, l = a ++ EStart no t i :: b -> forall n, In (EExpire n) a -> In (ERun n) a.
