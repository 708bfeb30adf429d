(** What the report of a finished ping-pong test means, in terms of what was observed. *)
From Coq Require Import List NArith Arith Bool.
From Verif Require Import M_PingPong.
Import ListNotations.

(** the last test that was started: its number and its parameters *)
Definition tests (t : list pev) : nat := length (filter (fun e => match e with EStart _ _ => true | _ => false end) t).
Fixpoint last_test (t : list pev) : option (nat * nat) :=
  match t with [] => None | e :: r => match last_test r with Some p => Some p | None => match e with EStart a b => Some (a, b) | _ => None end end end.
(** the bytes that came back over link [i] after the last test was started *)
Fixpoint back_aux (i : nat) (acc : list nat) (t : list pev) : list nat :=
  match t with
  | [] => acc
  | EStart _ _ :: r => back_aux i [] r
  | EBack j bs :: r => back_aux i (if j =? i then acc ++ bs else acc) r
  | _ :: r => back_aux i acc r
  end.
Definition back (i : nat) (t : list pev) : list nat := back_aux i [] t.
(** ... those of them that were first sent in this test *)
Definition own (i : nat) (t : list pev) : list nat := filter (Nat.eqb (tests t)) (back i t).

(** all bytes on their way on a link *)
Definition on_way (k : plink) : list nat := k_out k ++ k_up k ++ k_srv k ++ k_down k.
(** a test is begun on a link only when nothing is on its way there *)
Fixpoint quiet (c : pcfg) (s : pst) (l : list pact) : Prop :=
  match l with
  | [] => True
  | a :: l' =>
      match a, q_todo s with
      | TBegin, i :: _ => forall k, nth_error (q_links s) i = Some k -> on_way k = []
      | _, _ => True
      end /\ match pstep c s a with Some (s1, _) => quiet c s1 l' | None => True end
  end.
Definition starts (a : pact) : bool := match a with TStart _ _ => true | _ => false end.
(** the last test that was started has not been reported as finished *)
Fixpoint open_test (b : bool) (t : list pev) : bool := match t with [] => b | EStart _ _ :: r => open_test true r | EFinished :: r => open_test false r | _ :: r => open_test b r end.
