(** template class object_pool, include/object_pool.h:25-370, and generic_server::restore_socket,
    include/tcp/server.h:153-180, with any number of threads using a pool, interleaved at its critical sections.

    Objects are numbered in the order of their construction; a number stands for the pointer. shared_ptr
    references are counted: those the application (or a running callback) holds [o_ext], those of the two
    containers, and those of functions in progress.

    Simplifications: memory allocation succeeds; the id of an object is not -1 (asserted at 66, 132, 154);
    functions working on an object are called with a reference the caller owns; finalize() (117, the end of the
    pool's life) is left out; the iteration order of the unordered_map is insertion order. *)
From Coq Require Import List NArith Bool Arith.
Import ListNotations.
Open Scope N_scope.

(** an object as the pool sees it: id(), obsoleted(), references of the application *)
Record pobj : Type := mk_po { o_id : N; o_obs : bool; o_ext : nat }.

(** functions in progress, holding references *)
Inductive pframe : Type :=
| FInv (ps : list nat)                 (* del_object 84-86, 106-108; clear_obsoleted_object 302-308; change_object_id 159-160:
                                          about to be put into invalid_object_can *)
| FChg (p old : nat) (id : N).         (* change_object_id 157: old was popped, init_object_id is next *)

Record pool : Type := mk_p {
  objs : list pobj;          (* all objects created so far *)
  can : list (N * nat);      (* object_can, 383 *)
  inv : list nat;            (* invalid_object_can, 388 *)
  pend : list pframe;
  cur_id : N;                (* 379; uint_fast64_t *)
  max_size : N               (* 381 *)
}.

Definition no_obj : pobj := mk_po 0 false 0.
Definition obj (s : pool) (p : nat) : pobj := nth p (objs s) no_obj.
Definition frame_ptrs (f : pframe) : list nat := match f with FInv ps => ps | FChg _ old _ => [old] end.
Definition count (p : nat) (l : list nat) : nat := count_occ Nat.eq_dec l p.

(** shared_ptr::use_count *)
Definition refs (s : pool) (p : nat) : nat :=
  (o_ext (obj s p) + count p (map snd (can s)) + count p (inv s) + count p (concat (map frame_ptrs (pend s))))%nat.
(** unique() && obsoleted(), 259, 273, 330 *)
Definition idle (s : pool) (p : nat) : bool := (refs s p =? 1)%nat && o_obs (obj s p).

Definition upd_obj (s : pool) (p : nat) (f : pobj -> pobj) : pool :=
  mk_p (firstn p (objs s) ++ match nth_error (objs s) p with Some o => [f o] | None => [] end ++ skipn (S p) (objs s))
       (can s) (inv s) (pend s) (cur_id s) (max_size s).
Definition with_can (s : pool) x := mk_p (objs s) x (inv s) (pend s) (cur_id s) (max_size s).
Definition with_inv (s : pool) x := mk_p (objs s) (can s) x (pend s) (cur_id s) (max_size s).
Definition with_pend (s : pool) x := mk_p (objs s) (can s) (inv s) x (cur_id s) (max_size s).
Definition with_cur (s : pool) x := mk_p (objs s) (can s) (inv s) (pend s) x (max_size s).

Definition set_id (id : N) (o : pobj) : pobj := mk_po id (o_obs o) (o_ext o).
Definition set_obs (b : bool) (o : pobj) : pobj := mk_po (o_id o) b (o_ext o).
Definition more (o : pobj) : pobj := mk_po (o_id o) (o_obs o) (S (o_ext o)).
Definition less (o : pobj) : pobj := mk_po (o_id o) (o_obs o) (pred (o_ext o)).

(** unordered_map: find / emplace / erase by key *)
Definition lookup (id : N) (c : list (N * nat)) : option nat := option_map snd (find (fun e => fst e =? id) c).
Definition erase (id : N) (c : list (N * nat)) : list (N * nat) := filter (fun e => negb (fst e =? id)) c.

(** find, 212-217, exist 206-210 *)
Definition find_object (s : pool) (id : N) : option nat := lookup id (can s).

(** init_object_id, 130-144: its result and the pool *)
Definition init_object_id (s : pool) (p : nat) (id : N) : bool * pool :=
  if o_id (obj s p) =? id then (true, s)
  else match lookup id (can s) with
       | Some _ => (false, s)
       | None => (true, upd_obj (with_can s (erase (o_id (obj s p)) (can s ++ [(id, p)]))) p (set_id id))
       end.

(** invalid_object_pop(id), 252-263: the first object with that id, if idle *)
Fixpoint pop_id (s : pool) (id : N) (l : list nat) : option (nat * list nat) :=
  match l with
  | [] => None
  | p :: l' =>
    if o_id (obj s p) =? id then (if idle s p then Some (p, l') else None)
    else match pop_id s id l' with Some (q, r) => Some (q, p :: r) | None => None end
  end.
(** invalid_object_pop(), 266-278: the first idle object *)
Fixpoint pop_any (s : pool) (l : list nat) : option (nat * list nat) :=
  match l with
  | [] => None
  | p :: l' => if idle s p then Some (p, l') else match pop_any s l' with Some (q, r) => Some (q, p :: r) | None => None end
  end.

(** free_object, 320-345: the objects freed and the list left. Erasing an object from the list changes the
    references of that object only. *)
Fixpoint free_loop (s : pool) (num : N) (l : list nat) : list nat * list nat :=
  match l with
  | [] => ([], [])
  | p :: l' =>
    if (0 <? num) && idle s p then let '(a, b) := free_loop s (num - 1) l' in (p :: a, b)
    else let '(a, b) := free_loop s num l' in (a, p :: b)
  end.

Inductive pev : Type :=
| EvNew (p : nat) (id : N) | EvReuse (p : nat) (id : N)    (* create_object returned it *)
| EvAdd (p : nat) (ok : bool)                              (* result of add_object *)
| EvDel (ok : bool)                                        (* result of del_object *)
| EvInit (p : nat) (id : N) (ok : bool)                    (* result of init_object_id (restore_socket with init) *)
| EvTake (p old : nat) (id : N)                            (* change_object_id succeeded and returned old *)
| EvKeep (p : nat) (id : N)                                (* change_object_id failed *)
| EvFree (p : nat).                                        (* free_object dropped it *)

Inductive pact : Type :=
| PCreate                      (* create_object, 167-190, and init_object, 119-127 *)
| PHold (p : nat)              (* the application gets a(nother) reference: find, at, invalid_object_find, copying *)
| PDrop (p : nat)              (* it drops one *)
| PObs (p : nat) (b : bool)    (* obsoleted() of the object changes *)
| PAdd (p : nat)               (* add_object, 62-70 *)
| PDel (p : nat)               (* del_object(ptr), 74-82 *)
| PDelId (id : N)              (* del_object(id), 91-103 *)
| PPush (k : nat)              (* the second critical section of del_object, clear_obsoleted_object, change_object_id *)
| PInit (p : nat) (id : N)     (* restore_socket(p, id, true), include/tcp/server.h:173 *)
| PChange (p : nat) (id : N)   (* restore_socket(p, id, false) up to invalid_object_pop, 156 *)
| PChange2 (k : nat)           (* ... the rest, 157-164 *)
| PClear                       (* clear_obsoleted_object, 287-299 *)
| PFree (num : N).             (* free_object, 320 *)

Definition listed (s : pool) (p : nat) : bool := existsb (Nat.eqb p) (map snd (can s) ++ inv s).
Definition drop_nth {A} (k : nat) (l : list A) : list A := firstn k l ++ skipn (S k) l.

(** [reuse]: ST_ASIO_REUSE_OBJECT is defined and ST_ASIO_RESTORE_OBJECT is not *)
Definition pstep (reuse : bool) (s : pool) (a : pact) : option (pool * list pev) :=
  match a with
  | PCreate =>
      let id := (1 + cur_id s) mod 18446744073709551616 in
      match (if reuse then pop_any s (inv s) else None) with
      | Some (p, l) => Some (upd_obj (with_cur (with_inv s l) id) p (fun o => more (set_obs false (set_id id o))), [EvReuse p id])
      | None => Some (mk_p (objs s ++ [mk_po id false 1]) (can s) (inv s) (pend s) id (max_size s), [EvNew (length (objs s)) id])
      end
  | PHold p => if (0 <? o_ext (obj s p))%nat || listed s p then Some (upd_obj s p more, []) else None
  | PDrop p => if (0 <? o_ext (obj s p))%nat then Some (upd_obj s p less, []) else None
  | PObs p b => if (0 <? refs s p)%nat then Some (upd_obj s p (set_obs b), []) else None
  | PAdd p =>
      if (0 <? o_ext (obj s p))%nat then
        match lookup (o_id (obj s p)) (can s) with
        | None => if N.of_nat (length (can s)) <? max_size s
                  then Some (with_can s (can s ++ [(o_id (obj s p), p)]), [EvAdd p true]) else Some (s, [EvAdd p false])
        | Some _ => Some (s, [EvAdd p false])
        end
      else None
  | PDel p =>
      if (0 <? o_ext (obj s p))%nat then
        match lookup (o_id (obj s p)) (can s) with
        | Some _ => Some (with_pend (with_can s (erase (o_id (obj s p)) (can s))) (pend s ++ [FInv [p]]), [EvDel true])
        | None => Some (s, [EvDel false])
        end
      else None
  | PDelId id =>
      match lookup id (can s) with
      | Some p => Some (with_pend (with_can s (erase id (can s))) (pend s ++ [FInv [p]]), [EvDel true])
      | None => Some (s, [EvDel false])
      end
  | PPush k =>
      match nth_error (pend s) k with
      | Some (FInv ps) => Some (with_pend (with_inv s (inv s ++ ps)) (drop_nth k (pend s)), [])
      | _ => None
      end
  | PInit p id =>
      if (0 <? o_ext (obj s p))%nat then let '(ok, s1) := init_object_id s p id in Some (s1, [EvInit p id ok]) else None
  | PChange p id =>
      if (0 <? o_ext (obj s p))%nat then
        match pop_id s id (inv s) with
        | Some (old, l) => Some (with_pend (with_inv s l) (pend s ++ [FChg p old id]), [])
        | None => Some (s, [EvKeep p id])
        end
      else None
  | PChange2 k =>
      match nth_error (pend s) k with
      | Some (FChg p old id) =>
          if (0 <? o_ext (obj s p))%nat then
            let s0 := with_pend s (drop_nth k (pend s)) in
            let '(ok, s1) := init_object_id s0 p id in
            if ok then Some (upd_obj s1 old more, [EvTake p old id])
            else Some (with_pend s1 (pend s1 ++ [FInv [old]]), [EvKeep p id])
          else None
      | _ => None
      end
  | PClear =>
      let gone := filter (fun e => o_obs (obj s (snd e))) (can s) in
      match gone with
      | [] => Some (s, [])
      | _ => Some (with_pend (with_can s (filter (fun e => negb (o_obs (obj s (snd e)))) (can s))) (pend s ++ [FInv (map snd gone)]), [])
      end
  | PFree num => let '(freed, l) := free_loop s num (inv s) in Some (with_inv s l, map EvFree freed)
  end.

(** a pool right after construction, 45-46 *)
Definition new_pool (start max : N) : pool :=
  mk_p [] [] [] [] ((start + 18446744073709551615) mod 18446744073709551616) max.

Fixpoint psteps (reuse : bool) (s : pool) (al : list pact) : option (pool * list pev) :=
  match al with
  | [] => Some (s, [])
  | a :: al' =>
    match pstep reuse s a with
    | None => None
    | Some (s1, l1) => match psteps reuse s1 al' with None => None | Some (s2, l2) => Some (s2, l1 ++ l2) end
    end
  end.
