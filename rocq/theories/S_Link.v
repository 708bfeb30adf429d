(** What is required of a link, in terms of its status and of what can be observed (no helper of the model is used). *)
From Coq Require Import List ZArith Bool.
From Verif Require Import M_Link.
Import ListNotations.
Open Scope Z_scope.

(** how the status may change *)
Inductive legal : link -> link -> Prop :=
| lg_same : forall a, legal a a
| lg_up : legal BROKEN CONNECTED
| lg_grace : legal CONNECTED GRACEFUL
| lg_force : legal CONNECTED FORCE
| lg_force' : legal GRACEFUL FORCE
| lg_down : forall a, legal a BROKEN.

(** attempts are made only between a successful start() and the next shutdown; [on]: started *)
Fixpoint attempts_on (on : bool) (t : list kev) : bool :=
  match t with
  | [] => true
  | KvStart :: t' => attempts_on true t'
  | KvShut :: t' => attempts_on false t'
  | KvAttempt _ :: t' => on && attempts_on on t'
  | _ :: t' => attempts_on on t'
  end.

(** the next attempt is prepared only between a successful start() and the next shutdown; [on]: started *)
Fixpoint prepares_on (on : bool) (t : list kev) : bool :=
  match t with
  | [] => true
  | KvStart :: t' => prepares_on true t'
  | KvShut :: t' => prepares_on false t'
  | KvPrepare _ :: t' => on && prepares_on on t'
  | _ :: t' => prepares_on on t'
  end.

(** the wish that was expressed last; [w]: the one before *)
Fixpoint wish (w : bool) (t : list kev) : bool := match t with [] => w | KvWish b :: t' => wish b t' | _ :: t' => wish w t' end.

(** every closing restarts exactly when that is the last wish *)
Fixpoint obeyed (w : bool) (t : list kev) : bool :=
  match t with
  | [] => true
  | KvWish b :: t' => obeyed b t'
  | KvClose b :: t' => Bool.eqb b w && obeyed w t'
  | _ :: t' => obeyed w t'
  end.

(** every attempt has its own reason and waits as long as that says: 50 ms after start(), and what prepare_reconnect returned otherwise;
    [e]: the attempt to expect *)
Fixpoint paced (e : option Z) (t : list kev) : bool :=
  match t with
  | [] => true
  | KvStart :: t' => paced (Some 50) t'
  | KvPrepare ms :: t' => paced (if ms <? 0 then None else Some ms) t'
  | KvAttempt ms :: t' => match e with Some x => (x =? ms) && paced None t' | None => false end
  | _ :: t' => paced e t'
  end.

(** neither an attempt nor a connection nor a successful start() *)
Definition silent (t : list kev) : Prop := forall e, In e t -> match e with KvStart | KvAttempt _ | KvConnect => False | _ => True end.
(** the application neither calls start() nor asks for reconnecting *)
Definition unasked (t : list kev) : Prop := forall e, In e t -> match e with KvAsk => False | KvWish b => b = false | _ => True end.

(** calls of the handler of the timer that watches a graceful shutdown *)
Fixpoint ticks (l : list kact) : nat := match l with [] => 0 | KSdGo :: l' => S (ticks l') | _ :: l' => ticks l' end.
(** how often the end of the allowed time was reported *)
Fixpoint forced (t : list kev) : nat := match t with [] => 0 | KvForced :: t' => S (forced t') | _ :: t' => forced t' end.
(** the status is x in every state of a run *)
Fixpoint stays (x : link) (cl : bool) (max : nat) (s : kst) (l : list kact) : Prop :=
  k_status s = x /\ match l with [] => True | a :: l' => match kstep cl max s a with Some (s1, _) => stays x cl max s1 l' | None => True end end.
(** steps of the library alone: neither the application nor the peer does anything *)
Definition alone (l : list kact) : Prop := forall a, In a l -> match a with KReq _ _ | KNeed _ | KCall | KPeer => False | _ => True end.

(** a life: started, shut down, closing told once, and only then started again *)
Inductive life : Type := Off | On | Ending.
Definition life_step (p : option life) (e : kev) : option life :=
  match p, e with
  | Some Off, KvStart => Some On
  | Some On, KvShut => Some Ending
  | Some Ending, KvClose _ => Some Off
  | _, (KvStart | KvShut | KvClose _) => None
  | _, _ => p
  end.
Definition lives (t : list kev) : option life := fold_left life_step t (Some Off).
