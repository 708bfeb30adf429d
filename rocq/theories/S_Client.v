(** What is required of the receiving thread. *)
From Coq Require Import List Bool Arith.
From Verif Require Import M_Client.
Import ListNotations.

(** a message that arrives now can be received synchronously, if the thread is quick enough *)
Definition receivable (s : cst) : Prop := exists l s' t, run s (l ++ [AMsg]) = Some (s', t) /\ In ESync t /\ forall a, In a l -> a = ACall.
(** the service runs, and the link is connected or connecting *)
Definition working (s : cst) : Prop := c_main s = MLoop /\ c_run s = true /\ c_started s = true.
(** no link is closed, and a new thread makes its first call only after start_service *)
Fixpoint calm (starting : bool) (l : list cact) : bool :=
  match l with
  | [] => true
  | ABreak :: _ => false
  | AJoined :: l' => calm true l'
  | AStart :: l' => calm false l'
  | ACall :: l' => negb starting && calm starting l'
  | _ :: l' => calm starting l'
  end.
(** nobody asks for a restart *)
Definition no_restart (l : list cact) : Prop := ~ In (AStop true) l.
(** what the receiving thread does by itself *)
Definition own (a : cact) : bool := match a with ACall | ATimeout | AWake => true | _ => false end.
