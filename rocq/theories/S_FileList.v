(** What the file client is to do with the files it is told to get and put, in terms of commands, of what it prints and of
    what its links do. *)
From Coq Require Import List ZArith Bool Arith.
From Verif Require Import M_FileList.
Import ListNotations.
Local Open Scope Z_scope.

(** the files named by the user, and those begun, in order *)
Definition given_ev (e : mev) : list (bool * nat) := match e with EGive p f => [(p, f)] | _ => [] end.
Definition begun_ev (e : mev) : list (bool * nat) := match e with EBegin p f => [(p, f)] | _ => [] end.
Definition given (t : list mev) : list (bool * nat) := flat_map given_ev t.
Definition begun (t : list mev) : list (bool * nat) := flat_map begun_ev t.

(** one file at a time: no link is working when a file is begun; [o]: the links at work; None: it happened *)
Definition one_ev (o : option (list nat)) (e : mev) : option (list nat) :=
  match o with
  | None => None
  | Some l =>
    match e with
    | EAsk i _ => Some (i :: l)
    | EOver i => Some (remove Nat.eq_dec i l)
    | EBegin _ _ => match l with [] => Some [] | _ => None end
    | _ => o
    end
  end.
Definition one_at_a_time (t : list mev) : Prop := fold_left one_ev t (Some []) <> None.

(** a file is reported as failed only if some link cannot open it *)
Definition failed_ok (can : bool -> nat -> nat -> bool) (links : nat) (t : list mev) : Prop :=
  forall p f, In (EFailed p f) t -> exists i, (i < links)%nat /\ can p i f = false.

(** the percentage is that of the bytes of the current file which were transferred, and the end is reported when all of them
    were; the state: the current file and its bytes so far; None: a wrong report *)
Definition told_ev (len : bool -> nat -> option N) (o : option (option (bool * nat * Z))) (e : mev) : option (option (bool * nat * Z)) :=
  match o with
  | None => None
  | Some h =>
    match e with
    | EBegin p f => Some (Some (p, f, 0))
    | EBytes _ g k => match h with Some (p, f, a) => Some (Some (p, f, if (f =? g)%nat then a + k else a)) | None => o end
    | EPct x => match h with
                | Some (p, f, a) => match len p f with Some n => if (x =? a * 100 / Z.of_N n) && (x <=? 100) then o else None | None => None end
                | None => None
                end
    | EEnd => match h with
              | Some (p, f, a) => match len p f with Some n => if a =? Z.of_N n then o else None | None => None end
              | None => None
              end
    | _ => o
    end
  end.
Definition told_right (len : bool -> nat -> option N) (t : list mev) : Prop := fold_left (told_ev len) t (Some None) <> None.
