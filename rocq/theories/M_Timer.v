(** template class timer, include/timer.h:37-212: any number of timers identified by id, used by the
    application from inside and outside of the timers' callbacks.

    Simplifications: one timer is manipulated by one thread at a time (include/timer.h:28-29 demand it), so a
    callback with everything it does to timers is one step; creating a timer succeeds; callbacks are not empty
    functions; ST_ASIO_ALIGNED_TIMER is not defined (see [aligned_delay] below).
    boost::asio timers: starting or cancelling a timer completes its wait with an error, except that a wait
    whose expiration is already queued stays successful; queued handlers run in any order. Time is in
    milliseconds, expirations may be late by any amount. *)
From Coq Require Import List NArith Bool.
Import ListNotations.
Open Scope N_scope.

(** include/timer.h:57 *)
Inductive tstatus : Type := Created | Started | Canceled.
Definition is_started (x : tstatus) : bool := match x with Started => true | _ => false end.

(** a wait: the sequence number bound to its handler (include/timer.h:170) and its expiry time;
    [w_no] counts the starts of the timer and is not in the code *)
Record wait : Type := mk_w { w_seq : N; w_no : N; w_at : N }.

(** timer_info, include/timer.h:55-70; [t_armed]: the wait not yet expired; [t_queue]: handlers waiting to be
    run and whether they were completed without error; [t_no]: number of starts, not in the code *)
Record tinfo : Type := mk_t {
  t_id : N; t_seq : N; t_status : tstatus; t_interval : N;
  t_armed : option wait; t_queue : list (wait * bool); t_no : N
}.
(** constructor, include/timer.h:66: seq(-1) is 255 *)
Definition new_timer (id interval : N) : tinfo := mk_t id 255 Created interval None [] 0.

Record tsys : Type := mk_ts { now : N; timers : list tinfo }.

(** what happens to a timer; the numbers tell the start it belongs to *)
Inductive tev : Type :=
| EStart (no at_ interval : N)   (* started at that time with that interval *)
| EStop                          (* stop_timer / stop_all_timer / change_timer_status(.., TIMER_CANCELED) returned *)
| EExpire (no : N)               (* the expiration was queued *)
| ERun (no : N)                  (* timer_handler begins *)
| EFire (no at_ : N)             (* the callback is invoked *)
| ERet (no : N) (again : bool)   (* the callback returned *)
| EDone (no : N).                (* timer_handler decides about the timer's future *)

(** find_timer, include/timer.h:133-141 *)
Definition find_timer (id : N) (l : list tinfo) : option tinfo := find (fun t => t_id t =? id) l.
Definition upd (id : N) (f : tinfo -> tinfo) (l : list tinfo) : list tinfo := map (fun t => if t_id t =? id then f t else t) l.

Definition set_status (x : tstatus) (t : tinfo) : tinfo := mk_t (t_id t) (t_seq t) x (t_interval t) (t_armed t) (t_queue t) (t_no t).
Definition set_interval (x : N) (t : tinfo) : tinfo := mk_t (t_id t) (t_seq t) (t_status t) x (t_armed t) (t_queue t) (t_no t).
Definition set_queue (x : list (wait * bool)) (t : tinfo) : tinfo := mk_t (t_id t) (t_seq t) (t_status t) (t_interval t) (t_armed t) x (t_no t).

(** expires_after and cancel complete a wait that has not expired with operation_aborted *)
Definition aborted (t : tinfo) : list (wait * bool) := match t_armed t with Some w => t_queue t ++ [(w, false)] | None => t_queue t end.

(** start_timer(ti), include/timer.h:157-174; seq is an unsigned char *)
Definition start_ti (tm : N) (t : tinfo) : tinfo :=
  let seq := (t_seq t + 1) mod 256 in
  mk_t (t_id t) seq Started (t_interval t) (Some (mk_w seq (t_no t + 1) (tm + t_interval t))) (aborted t) (t_no t + 1).

(** stop_timer(ti), include/timer.h:197-205 *)
Definition stop_ti (t : tinfo) : tinfo :=
  if is_started (t_status t) then mk_t (t_id t) (t_seq t) Canceled (t_interval t) None (aborted t) (t_no t) else t.

(** what the application can do *)
Inductive top : Type :=
| OSet (id interval : N)      (* set_timer, include/timer.h:130-131 *)
| OUpdate (id interval : N)   (* create_or_update_timer without start, change_timer_interval, include/timer.h:95-127 *)
| OStart (id : N)             (* start_timer(id), include/timer.h:144 *)
| OStop (id : N)              (* stop_timer(id), include/timer.h:145 *)
| OStopAll (but : option N)   (* stop_all_timer, include/timer.h:146-151 *)
| OMark (id : N).             (* change_timer_status(id, TIMER_CANCELED), include/timer.h:122 *)

Definition start_in (s : tsys) (id : N) : tsys * list (N * tev) :=
  match find_timer id (timers s) with
  | None => (s, [])
  | Some t => (mk_ts (now s) (upd id (start_ti (now s)) (timers s)), [(id, EStart (t_no t + 1) (now s) (t_interval t))])
  end.

(** create_or_update_timer up to the start, include/timer.h:97-112 *)
Definition create_or_update (s : tsys) (id interval : N) : tsys :=
  match find_timer id (timers s) with
  | None => mk_ts (now s) (timers s ++ [new_timer id interval])
  | Some _ => mk_ts (now s) (upd id (set_interval interval) (timers s))
  end.

Definition spared (but : option N) (id : N) : bool := match but with Some b => b =? id | None => false end.

Definition do_op (s : tsys) (o : top) : tsys * list (N * tev) :=
  match o with
  | OSet id iv => start_in (create_or_update s id iv) id
  | OUpdate id iv => (create_or_update s id iv, [])
  | OStart id => start_in s id
  | OStop id => (mk_ts (now s) (upd id stop_ti (timers s)), [(id, EStop)])
  | OStopAll but => (mk_ts (now s) (map (fun t => if spared but (t_id t) then t else stop_ti t) (timers s)),
                     map (fun t => (t_id t, EStop)) (filter (fun t => negb (spared but (t_id t))) (timers s)))
  | OMark id => (mk_ts (now s) (upd id (set_status Canceled) (timers s)), [(id, EStop)])
  end.

Fixpoint do_ops (s : tsys) (os : list top) : tsys * list (N * tev) :=
  match os with
  | [] => (s, [])
  | o :: os' => let '(s1, l1) := do_op s o in let '(s2, l2) := do_ops s1 os' in (s2, l1 ++ l2)
  end.

Definition remove_nth {A} (k : nat) (l : list A) : list A := firstn k l ++ skipn (S k) l.

(** the end of timer_handler, include/timer.h:188-194 *)
Definition finish (s : tsys) (id : N) (w : wait) (again : bool) : tsys * list (N * tev) :=
  match find_timer id (timers s) with
  | None => (s, [])
  | Some t =>
    if again && is_started (t_status t) then let '(s1, l) := start_in s id in (s1, (id, EDone (w_no w)) :: l)
    else if w_seq w =? t_seq t then (mk_ts (now s) (upd id (set_status Canceled) (timers s)), [(id, EDone (w_no w))])
    else (s, [(id, EDone (w_no w))])
  end.

(** timer_handler, include/timer.h:175-195; [script], [again]: what the callback does to timers, if invoked, and returns *)
Definition handler (s : tsys) (id : N) (w : wait) (ok : bool) (script : list top) (again : bool) : tsys * list (N * tev) :=
  match find_timer id (timers s) with
  | None => (s, [])
  | Some t =>
    if is_started (t_status t) && ok then
      let '(s1, l1) := do_ops s script in
      let '(s2, l2) := finish s1 id w again in
      (s2, (id, ERun (w_no w)) :: (id, EFire (w_no w) (now s)) :: l1 ++ (id, ERet (w_no w) again) :: l2)
    else let '(s1, l1) := finish s id w false in (s1, (id, ERun (w_no w)) :: l1)
  end.

Inductive taction : Type :=
| ATick                                            (* a millisecond passes *)
| AExpire (id : N)                                 (* asio queues the expiration of a timer that is due *)
| AOp (o : top)                                    (* the application, outside of callbacks *)
| AHandle (id : N) (k : nat) (script : list top) (again : bool). (* a thread runs the k-th queued handler of a timer *)

Definition tact (s : tsys) (a : taction) : option (tsys * list (N * tev)) :=
  match a with
  | ATick => Some (mk_ts (now s + 1) (timers s), [])
  | AExpire id =>
      match find_timer id (timers s) with
      | Some t =>
        match t_armed t with
        | Some w => if w_at w <=? now s
                    then Some (mk_ts (now s) (upd id (fun t => mk_t (t_id t) (t_seq t) (t_status t) (t_interval t) None (t_queue t ++ [(w, true)]) (t_no t)) (timers s)),
                               [(id, EExpire (w_no w))])
                    else None
        | None => None
        end
      | None => None
      end
  | AOp o => Some (do_op s o)
  | AHandle id k script again =>
      match find_timer id (timers s) with
      | Some t =>
        match nth_error (t_queue t) k with
        | Some (w, ok) => Some (handler (mk_ts (now s) (upd id (set_queue (remove_nth k (t_queue t))) (timers s))) id w ok script again)
        | None => None
        end
      | None => None
      end
  end.

Fixpoint tacts (s : tsys) (al : list taction) : option (tsys * list (N * tev)) :=
  match al with
  | [] => Some (s, [])
  | a :: al' =>
    match tact s a with
    | None => None
    | Some (s1, l1) => match tacts s1 al' with None => None | Some (s2, l2) => Some (s2, l1 ++ l2) end
    end
  end.

Definition no_timers : tsys := mk_ts 0 [].

(** the next delay with ST_ASIO_ALIGNED_TIMER, include/timer.h:183-187; [None]: division by zero.
    [elapsed]: duration of the callback, below 2^32 *)
Definition aligned_delay (interval elapsed : N) : option N :=
  if interval <? elapsed then (if interval =? 0 then None else Some (interval - elapsed mod interval))
  else Some (interval - elapsed).
