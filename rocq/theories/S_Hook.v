(** What an application may expect of registered functions, said over the operations and what was seen of them. *)
From Coq Require Import List Bool Arith ZArith.
From Verif Require Import M_Hook.
Import ListNotations.
Open Scope Z_scope.

(** callbacks seen, in order; how often the library's own function ran; results given to the library *)
Definition callbacks (l : list hev) : list (fn * nat * nat) := flat_map (fun e => match e with VCallback f c a => [(f, c, a)] | _ => [] end) l.
Definition owns (l : list hev) : list (fn * nat) := flat_map (fun e => match e with VOwn f a => [(f, a)] | _ => [] end) l.
Definition results (l : list hev) : list Z := flat_map (fun e => match e with VResult _ r => [r] | _ => [] end) l.
(** callbacks come before the library's own function *)
Definition callback_first (l : list hev) : Prop := forall a f x b, l = a ++ VOwn f x :: b -> callbacks b = [].

(** the registration that counts: the last one of this function *)
Fixpoint last_reg (f : fn) (l : list hop) : option (nat * option bool) :=
  match l with
  | [] => None
  | HReg g c po :: l' =>
      match last_reg f l' with
      | Some r => Some r
      | None => if fn_eq_dec f g then Some (c, po) else None
      end
  | HFire _ _ _ _ :: l' => last_reg f l'
  end.

(** functions the library needs its own handling of: without it links are not shut down, objects not closed, freed or reconnected, and
    no further link is accepted *)
Definition duty (f : fn) : Prop :=
  In f [Reset; On_heartbeat_error; On_recv_error; On_close; After_close; On_unpack_error; On_async_shutdown_error; Start_next_accept].
(** functions whose number the library goes by *)
Definition number (f : fn) : Prop := In f [On_msg; On_msg_handle_batch; Calc_shrink_size; Prepare_reconnect; Async_accept_num].
(** functions that answer yes or no *)
Definition yesno (f : fn) : Prop := In f [Obsoleted; Is_ready; On_heartbeat_error; On_msg_handle; On_accept; On_accept_error].
