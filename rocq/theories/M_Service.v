(** service_pump and the services it manages (i_service): registration, starting, stopping, removing and destroying,
    include/service_pump.h:22-57, 216-320, 380-437, 524-535.

    One thread uses the pump; the virtual functions init, uninit, finalize and free are user code, which may call
    the pump again ("nested" calls). service_can_mutex is a boost::mutex: locking it twice in one thread never returns.

    Simplifications: services are numbered; the work of the service threads is one action ([AJoin]: all io_contexts
    ran out of work, join_all returns); on_exception, the io_contexts and the number of threads are in M_Pump. *)
From Coq Require Import List Bool Arith.
Import ListNotations.

Inductive kind : Type := KStart | KStop | KFinal.
(** what is on the call stack *)
Inductive frame : Type :=
| FInit (x : nat) | FUninit (x : nat) | FFinal (x : nat) | FFree (x : nat)   (* inside a virtual function of the user *)
| FAll (k : kind) (rest : list nat)   (* do_something_to_all, service_can_mutex is held *)
| FThreads (n : nat)                  (* do_service before add_service_thread, 411 *)
| FWait                               (* wait_service before join_all, 414-420 *)
| FEnded                              (* wait_service after finalizing, 423 *)
| FStop (x : nat)                     (* stop_and_free before stop_service, 434 *)
| FGone (x : nat)                     (* stop_and_free before free, 435 *)
| FClear (l : list nat)               (* clear: the services still to be stopped and freed, 264 *)
| FDying (x : nat).                   (* the destructor of i_service after remove(this), 28 *)
(** an object *)
Inductive life : Type := Gone | Live | Dying (* in the destructor of i_service *).

(** what must never happen *)
Inductive fate : Type :=
| Deadlock       (* service_can_mutex is locked by its owner again *)
| PureVirtual    (* uninit is called in the destructor of i_service, when the derived class is already destroyed *)
| Dangling       (* a service that does not exist any more is used *)
| Double.        (* a service is destroyed while it is being destroyed *)

Record pump : Type := mk_p {
  p_reg : list nat;          (* service_can *)
  p_obj : nat -> life;
  p_id : nat -> nat;         (* i_service::id_ *)
  p_on : nat -> bool;        (* i_service::started_ *)
  p_started : bool; p_first : bool;
  p_lock : bool;             (* service_can_mutex *)
  p_stack : list frame;
  p_fate : option fate }.
Definition pump0 : pump := mk_p [] (fun _ => Gone) (fun _ => 0) (fun _ => false) false true false [] None.

(** calls of the interface *)
Inductive call : Type :=
| CNew (x : nat) (id : nat)         (* construct service x (its id is set right after), 27, 524-533 *)
| CDelete (x : nat)                 (* destroy service x, 28 *)
| CRemove (x : nat)                 (* remove(object_type), 227-236 *)
| CRemoveId (id : nat)              (* remove(int), 238-254 *)
| CClear                            (* 256-265 *)
| CFind (id : nat)                  (* 216-225 *)
| CStart (n : nat)                  (* start_service(thread_num), 270 *)
| CStop                             (* stop_service(), 272-279 *)
| CEnd                              (* end_service(), 311-321 *)
| CStartOne (x : nat) (n : nat)     (* start_service(i_service_, thread_num), 282-290 *)
| CStopOne (x : nat).               (* stop_service(i_service_), 296 *)
Inductive act : Type :=
| ACall (c : call)     (* by the code that is in control: the program or a virtual function *)
| ARet (b : bool)      (* a virtual function returns; b: the result of init *)
| ATick                (* the library goes on *)
| AJoin.               (* the service threads have ended *)

Inductive ev : Type :=
| EInit (x : nat) | EInited (x : nat) (b : bool) | EUninit (x : nat) | EUninited (x : nat)
| EFinal (x : nat) | EFree (x : nat) | ENew (x : nat) | EDestroyed (x : nat)
| EFound (r : option nat)
| ERefused                     (* "thread_num must be bigger than or equal to io_context_num", 384 *)
| EStarted (n : nat)           (* add_service_thread(n) *)
| EEnded.                      (* "service pump end." *)

Definition upd {A} (f : nat -> A) (x : nat) (v : A) : nat -> A := fun y => if y =? x then v else f y.
Definition with_reg (s : pump) (l : list nat) : pump := mk_p l (p_obj s) (p_id s) (p_on s) (p_started s) (p_first s) (p_lock s) (p_stack s) (p_fate s).
Definition with_obj (s : pump) (x : nat) (b : life) : pump := mk_p (p_reg s) (upd (p_obj s) x b) (p_id s) (p_on s) (p_started s) (p_first s) (p_lock s) (p_stack s) (p_fate s).
Definition with_id (s : pump) (x : nat) (i : nat) : pump := mk_p (p_reg s) (p_obj s) (upd (p_id s) x i) (p_on s) (p_started s) (p_first s) (p_lock s) (p_stack s) (p_fate s).
Definition with_on (s : pump) (x : nat) (b : bool) : pump := mk_p (p_reg s) (p_obj s) (p_id s) (upd (p_on s) x b) (p_started s) (p_first s) (p_lock s) (p_stack s) (p_fate s).
Definition with_started (s : pump) (b f : bool) : pump := mk_p (p_reg s) (p_obj s) (p_id s) (p_on s) b f (p_lock s) (p_stack s) (p_fate s).
Definition with_lock (s : pump) (b : bool) : pump := mk_p (p_reg s) (p_obj s) (p_id s) (p_on s) (p_started s) (p_first s) b (p_stack s) (p_fate s).
Definition with_stack (s : pump) (k : list frame) : pump := mk_p (p_reg s) (p_obj s) (p_id s) (p_on s) (p_started s) (p_first s) (p_lock s) k (p_fate s).
Definition doomed (s : pump) (f : fate) : pump := mk_p (p_reg s) (p_obj s) (p_id s) (p_on s) (p_started s) (p_first s) (p_lock s) (p_stack s) (Some f).
Definition push (s : pump) (f : frame) : pump := with_stack s (f :: p_stack s).

(** i_service::start_service, 33 *)
Definition i_start (s : pump) (x : nat) : pump * list ev := if p_on s x then (s, []) else (push s (FInit x), [EInit x]).
(** i_service::stop_service, 34 *)
Definition i_stop (s : pump) (x : nat) : pump * list ev := if p_on s x then (push s (FUninit x), [EUninit x]) else (s, []).
(** a use of service x *)
Definition deref (s : pump) (x : nat) (r : pump * list ev) : pump * list ev := match p_obj s x with Live => r | _ => (doomed s Dangling, []) end.
(** do_something_to_all: lock, then one service after the other, 499 *)
Definition for_all (s : pump) (k : kind) : pump := if p_lock s then doomed s Deadlock else with_lock (push s (FAll k (p_reg s))) true.
(** do_service, 380-412; [ctx]: the number of io_contexts *)
Definition do_service (ctx : nat) (s : pump) (n : nat) : pump * list ev :=
  if (n =? 0) || (n <? ctx) then (s, [ERefused])
  else (for_all (push (with_started s true (p_first s)) (FThreads n)) KStart, []).
(** end_service, 311-321 *)
Definition end_service (s : pump) : pump := if p_started s then for_all s KStop else s.

Definition find_id (s : pump) (i : nat) : option nat := find (fun x => p_id s x =? i) (p_reg s).
(** stop_and_free of a service that still exists, 430-436 *)
Definition stop_and_free (s : pump) (x : nat) : pump := push (push s (FGone x)) (FStop x).

Definition is_live (s : pump) (x : nat) : bool := match p_obj s x with Live => true | _ => false end.

Definition docall (ctx : nat) (s : pump) (c : call) : option (pump * list ev) :=
  match c with
  | CNew x i =>
    match p_obj s x with
    | Gone => if p_lock s then Some (doomed s Deadlock, [])
              else Some (with_reg (with_id (with_obj (with_on s x false) x Live) x i) (p_reg s ++ [x]), [ENew x])
    | _ => None
    end
  | CDelete x =>
    match p_obj s x with
    | Live =>
      if p_lock s then Some (doomed s Deadlock, [])                                                          (* 231 *)
      else if p_on s x then Some (doomed (with_reg s (remove Nat.eq_dec x (p_reg s))) PureVirtual, [])       (* 235, 434, 34 *)
      else Some (push (push (with_obj (with_reg s (remove Nat.eq_dec x (p_reg s))) x Dying) (FDying x)) (FFree x), [EFree x])   (* 435 *)
    | Dying => Some (doomed s Double, [])
    | Gone => None
    end
  | CRemove x =>
    if negb (is_live s x) then None
    else if p_lock s then Some (doomed s Deadlock, [])
    else Some (stop_and_free (with_reg s (remove Nat.eq_dec x (p_reg s))) x, [])
  | CRemoveId i =>
    if p_lock s then Some (doomed s Deadlock, [])
    else match find_id s i with
         | Some x => Some (stop_and_free (with_reg s (remove Nat.eq_dec x (p_reg s))) x, [])
         | None => Some (s, [])
         end
  | CClear => if p_lock s then Some (doomed s Deadlock, []) else Some (push (with_reg s []) (FClear (p_reg s)), [])
  | CFind i => if p_lock s then Some (doomed s Deadlock, []) else Some (s, [EFound (find_id s i)])
  | CStart n => if p_started s then Some (s, []) else Some (do_service ctx s n)
  | CStop => if p_started s then Some (end_service (push s FWait), []) else Some (s, [])
  | CEnd => Some (end_service s, [])
  | CStartOne x n =>
    if negb (is_live s x) then None
    else if p_started s then Some (i_start s x) else Some (do_service ctx s n)
  | CStopOne x => if negb (is_live s x) then None else Some (i_stop s x)
  end.

(** the user's code is in control *)
Definition user_turn (k : list frame) : bool :=
  match k with [] => true | FInit _ :: _ | FUninit _ :: _ | FFinal _ :: _ | FFree _ :: _ => true | _ => false end.

Definition step (ctx : nat) (s : pump) (a : act) : option (pump * list ev) :=
  match p_fate s with
  | Some _ => None
  | None =>
    match a with
    | ACall c => if user_turn (p_stack s) then docall ctx s c else None
    | ARet b =>
      match p_stack s with
      | FInit x :: k => Some (deref s x (with_on (with_stack s k) x b, [EInited x b]))
      | FUninit x :: k => Some (deref s x (with_on (with_stack s k) x false, [EUninited x]))
      | FFinal _ :: k | FFree _ :: k => Some (with_stack s k, [])
      | _ => None
      end
    | ATick =>
      match p_stack s with
      | FAll kd (x :: l) :: k =>
        let s1 := with_stack s (FAll kd l :: k) in
        match kd with
        | KStart => Some (deref s x (i_start s1 x))
        | KStop => Some (deref s x (i_stop s1 x))
        | KFinal => Some (deref s x (push s1 (FFinal x), [EFinal x]))
        end
      | FAll _ [] :: k => Some (with_lock (with_stack s k) false, [])
      | FThreads n :: k => Some (with_stack s k, [EStarted n])
      | FEnded :: k => Some (with_started (with_stack s k) false false, [EEnded])
      | FStop x :: k => Some (deref s x (i_stop (with_stack s k) x))
      | FGone x :: k => Some (push (with_stack s k) (FFree x), [EFree x])
      | FDying x :: k => Some (with_obj (with_stack s k) x Gone, [EDestroyed x])
      | FClear [] :: k => Some (with_stack s k, [])
      | FClear (x :: l) :: k => Some (stop_and_free (with_stack s (FClear l :: k)) x, [])
      | _ => None
      end
    | AJoin => match p_stack s with FWait :: k => Some (for_all (push (with_stack s k) FEnded) KFinal, []) | _ => None end
    end
  end.

Fixpoint run (ctx : nat) (s : pump) (l : list act) : option (pump * list ev) :=
  match l with
  | [] => Some (s, [])
  | a :: l' => match step ctx s a with
               | Some (s1, e1) => match run ctx s1 l' with Some (s2, e2) => Some (s2, e1 ++ e2) | None => None end
               | None => None
               end
  end.
