(** What the application sees of message dispatching, independent of the model. *)
From Coq Require Import List NArith Bool.
From Verif Require Import M_Dispatch.
Import ListNotations.

(** [replay q busy tr]: [q] messages received and not yet handled, oldest first; [busy]: the handler is running.
    [None] if the handler was called for anything but the oldest message or while running. *)
Fixpoint replay (q : list msg) (busy : bool) (tr : list dev) : option (list msg * bool) :=
  match tr with
  | [] => Some (q, busy)
  | ERecv ms :: tr' => replay (q ++ ms) busy tr'
  | EPresent (Some m) :: tr' => match busy, q with false, h :: _ => if N.eqb h m then replay q true tr' else None | _, _ => None end
  | EResult (Some m) ok :: tr' => match busy, q with true, h :: r => if N.eqb h m then replay (if ok then r else q) false tr' else None | _, _ => None end
  | EPresent None :: _ | EResult None _ :: _ => None
  | EClosed :: tr' | EReopened :: tr' => replay q busy tr'
  end.
Definition received (tr : list dev) : list msg := flat_map (fun e => match e with ERecv ms => ms | _ => [] end) tr.
Definition handled (tr : list dev) : list msg := flat_map (fun e => match e with EResult (Some m) true => [m] | _ => [] end) tr.
Definition presents (tr : list dev) : bool := existsb (fun e => match e with EPresent _ => true | _ => false end) tr.

(** ** the pause after a refused message
    [PFree]: on_msg_handle may be called; [PRefused]: it refused a message, the wait has not begun; [PWaiting]: the wait of
    msg_handling_interval runs *)
Inductive pause : Type := PFree | PRefused | PWaiting.
Definition pause_step (p : pause) (a : daction) : option pause :=
  match a, p with
  | DRet false, _ => Some PRefused
  | DRet true, _ => Some PFree
  | DSetB, PRefused => Some PWaiting
  | DExpire, PWaiting => Some PFree
  | DMark, PFree => Some PFree
  | DMark, _ => None
  | _, _ => Some p
  end.
Fixpoint pause_run (p : pause) (l : list daction) : option pause :=
  match l with [] => Some p | a :: l' => match pause_step p a with Some p' => pause_run p' l' | None => None end end.
(** on_msg_handle is never called between a refusal and the end of the wait that follows it *)
Definition paced (l : list daction) : Prop := pause_run PFree l <> None.
