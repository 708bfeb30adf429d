(** service_pump, include/service_pump.h: placing objects and threads on io_contexts (C45-C47), and service
    threads that can be decreased at runtime (C48).

    io_contexts are numbered in the order of context_can; unsigned is 32 bits wide. *)
From Coq Require Import List NArith ZArith Bool Arith.
Import ListNotations.
Open Scope N_scope.

Definition W32 : N := 4294967296.

(** The loop of assign_io_context, 165-176, and of assign_thread, 508-519, over the loads of the contexts:
    [i] is the position of the iterator, [best] the current (refs, ctx), 0 standing for refs of a NULL ctx too. *)
Fixpoint least_loop (l : list N) (i : nat) (refs : N) (ctx : option nat) : option nat :=
  match l with
  | [] => ctx
  | x :: l' =>
    let take := (x =? 0) || (refs =? 0) || (x <? refs) in
    let refs' := if take then x else refs in
    let ctx' := if take then Some i else ctx in
    if x =? 0 then ctx' else least_loop l' (S i) refs' ctx'
  end.
Definition least (l : list N) : option nat := least_loop l 0 0 None.

Fixpoint upd_nth {A} (k : nat) (f : A -> A) (l : list A) : list A :=
  match k, l with
  | _, [] => []
  | O, x :: l' => f x :: l'
  | S k', x :: l' => x :: upd_nth k' f l'
  end.

(** ** Objects and their references *)
(** an object (a timer, include/timer.h:72-92, 207, 217, or the acceptor of a server, include/tcp/server.h:24, 53-79):
    its io_context and io_context_refs *)
Record robj : Type := mk_ro { ro_ctx : nat; ro_refs : N }.
(** the pump: single_ctx (530), refs of the contexts (63), the objects constructed with it *)
Record pump : Type := mk_pump { single : bool; ctxs : list N; robjs : list robj }.

(** return_io_context, 189-201, and assign_io_context(ctx, refs), 202-214 *)
Definition add_refs (p : pump) (k : nat) (n : N) : pump :=
  if single p then p else mk_pump (single p) (upd_nth k (fun x => (x + n) mod W32) (ctxs p)) (robjs p).
Definition sub_refs (p : pump) (k : nat) (n : N) : pump :=
  if single p then p else mk_pump (single p) (upd_nth k (fun x => (x + (W32 - n)) mod W32) (ctxs p)) (robjs p).
(** assign_io_context(true), 157-187 *)
Definition assign (p : pump) : option (nat * pump) :=
  if single p then Some (0%nat, p)
  else match least (ctxs p) with
       | Some k => Some (k, add_refs p k 1)
       | None => None                                        (* 186: throws *)
       end.

Definition set_refs (p : pump) (o : nat) (n : N) : pump :=
  mk_pump (single p) (ctxs p) (upd_nth o (fun r => mk_ro (ro_ctx r) n) (robjs p)).

Inductive rop : Type :=
| RNew                       (* construct an object with the pump *)
| RAdd (o : nat) (n : N)     (* add_io_context_refs, include/timer.h:76-83 *)
| RSub (o : nat) (n : N)     (* sub_io_context_refs, 84-91 *)
| RClear (o : nat)           (* clear_io_context_refs, 92: on_close and destructors *)
| RReset (o : nat)           (* reset_io_context_refs, 207: reset() *)
| RCtxNum (n : nat)          (* set_io_context_num, include/service_pump.h:105-116, before the service was started *)
| RCtxs (n : nat).           (* add_service_thread(_, _, n), 345-354 *)

Definition do_add (p : pump) (o : nat) (r : robj) (n : N) : pump :=
  if 0 <? n then add_refs (set_refs p o ((ro_refs r + n) mod W32)) (ro_ctx r) n else p.
Definition do_sub (p : pump) (o : nat) (r : robj) (n : N) : pump :=
  if (0 <? n) && (n <=? ro_refs r) then sub_refs (set_refs p o (ro_refs r - n)) (ro_ctx r) n else p.

Definition rstep (p : pump) (a : rop) : pump :=
  match a with
  | RNew => match assign p with Some (k, p1) => mk_pump (single p1) (ctxs p1) (robjs p1 ++ [mk_ro k 1]) | None => p end
  | RAdd o n => match nth_error (robjs p) o with Some r => do_add p o r n | None => p end
  | RSub o n => match nth_error (robjs p) o with Some r => do_sub p o r n | None => p end
  | RClear o => match nth_error (robjs p) o with Some r => do_sub p o r (ro_refs r) | None => p end
  | RReset o => match nth_error (robjs p) o with Some r => if ro_refs r =? 0 then do_add p o r 1 else p | None => p end
  | RCtxNum n =>
      if ((n <? 1) || (1 <? length (ctxs p)))%nat then p
      else let c := ctxs p ++ repeat 0 (n - 1) in mk_pump (if (1 <? length c)%nat then false else single p) c (robjs p)
  | RCtxs n => if (0 <? n)%nat then mk_pump false (ctxs p ++ repeat 0 n) (robjs p) else p
  end.
Definition rsteps (p : pump) (l : list rop) : pump := fold_left rstep l p.
(** the constructor, 91-103, 118-120; multi_ctx is set by single_service_pump *)
Definition new_pump (multi_ctx : bool) : pump := mk_pump (negb multi_ctx) [0] [].

(** ** Threads *)
(** threads.size() of each context (71) and the threads that call run() directly because of block (364) *)
Record thr : Type := mk_thr { tn : list N; blocked : list nat; sv_started : bool }.
(** one iteration of the loop of add_service_thread, 357-367 *)
Definition add_one (t : thr) (block_it : bool) : thr :=
  match least (tn t) with
  | None => t
  | Some k => if block_it then mk_thr (tn t) (blocked t ++ [k]) (sv_started t)
              else mk_thr (upd_nth k N.succ (tn t)) (blocked t) (sv_started t)
  end.
Fixpoint add_many (t : thr) (n : nat) (block : bool) : thr :=
  match n with
  | O => t
  | S n' => add_many (add_one t (block && (n' =? 0)%nat)) n' block
  end.
(** add_service_thread, 337-368; thread_num is an int *)
Definition add_service_thread (t : thr) (thread_num : Z) (block : bool) (io_num : Z) : thr :=
  if (0 <? io_num)%Z then
    if (thread_num <? io_num)%Z then t
    else add_many (mk_thr (tn t ++ repeat 0 (Z.to_nat io_num)) (blocked t) (sv_started t)) (Z.to_nat thread_num) block
  else add_many t (Z.to_nat thread_num) block.
(** do_service, 376-408 *)
Definition do_service (t : thr) (thread_num : Z) (block : bool) : thr :=
  if ((thread_num <=? 0) || (thread_num <? Z.of_nat (length (tn t))))%Z then t
  else add_service_thread (mk_thr (tn t) (blocked t) true) thread_num block 0.
(** threads really serving context k *)
Definition serving (t : thr) (k : nat) : N := nth k (tn t) 0 + N.of_nat (count_occ Nat.eq_dec (blocked t) k).

(** ** Decreasing threads at runtime (ST_ASIO_DECREASE_THREAD_AT_RUNTIME), run(), 450-486 *)
Inductive rpc : Type :=
| RBegin       (* before ++real_thread_num, 455 *)
| RCheck       (* if (del_thread_num > 0), 458 *)
| RDec         (* --del_thread_num, 460 *)
| RUndo        (* ++del_thread_num, 468 *)
| RDecReal     (* --real_thread_num > 0, 462 *)
| RIncReal     (* ++real_thread_num, 465 *)
| RRun         (* run_one, 473-477 *)
| RLeave       (* --real_thread_num, 483 *)
| RExit.
Record dst : Type := mk_dst { real : Z; del : Z; pcs : list (nat * rpc) }.   (* 526, 527; threads: their context and position *)

(** how run_one ends *)
Inductive run_res : Type :=
| OneDone                  (* a handler was executed *)
| NoWork                   (* returned 0: the io_context is stopped or has no work *)
| Thrown (go_on : bool).   (* a handler threw; the result of on_exception *)

Inductive dact : Type :=
| DSpawn (ctx : nat)       (* create_thread *)
| DDel (n : Z)             (* del_service_thread, 371 *)
| DStep (k : nat) (r : run_res).   (* one atomic operation of thread k; r matters for run_one only *)

Definition rpc_step (re de : Z) (pc : rpc) (r : run_res) : option (Z * Z * rpc) :=
  match pc with
  | RBegin => Some (re + 1, de, RCheck)%Z
  | RCheck => Some (re, de, if (0 <? de)%Z then RDec else RRun)
  | RDec => let d := (de - 1)%Z in Some (re, d, if (0 <=? d)%Z then RDecReal else RUndo)
  | RUndo => Some (re, de + 1, RRun)%Z
  | RDecReal => let x := (re - 1)%Z in Some (x, de, if (0 <? x)%Z then RExit else RIncReal)
  | RIncReal => Some (re + 1, de, RRun)%Z
  | RRun => Some (re, de, match r with OneDone => RCheck | NoWork => RLeave | Thrown true => RLeave | Thrown false => RExit end)
  | RLeave => Some (re - 1, de, RExit)%Z
  | RExit => None
  end.
Definition dstep (s : dst) (a : dact) : option dst :=
  match a with
  | DSpawn c => Some (mk_dst (real s) (del s) (pcs s ++ [(c, RBegin)]))
  | DDel n => Some (if (0 <? n)%Z then mk_dst (real s) (del s + n) (pcs s) else s)
  | DStep k r =>
      match nth_error (pcs s) k with
      | Some (c, pc) => match rpc_step (real s) (del s) pc r with
                        | Some (re, de, pc') => Some (mk_dst re de (upd_nth k (fun _ => (c, pc')) (pcs s)))
                        | None => None
                        end
      | None => None
      end
  end.
Fixpoint dsteps (s : dst) (l : list dact) : option dst :=
  match l with [] => Some s | a :: l' => match dstep s a with Some s1 => dsteps s1 l' | None => None end end.
Definition d0 : dst := mk_dst 0 0 [].
