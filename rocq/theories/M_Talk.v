(** A client and an echo server: the path of messages to the server (M_Path.v), the callback of the server, which sends each message back
    (echo_server/echo_server.cpp:152), and the path of messages to the client (M_Path.v).

    Simplified: as M_Path.v, for both directions; one life of the link; the server sends nothing else (no heartbeats of the server); the
    callback runs in thread 0 of the server's sending side, thread 1 starts the link. The two directions of the link are established and
    broken independently of each other, which allows more histories than there are. *)
From Coq Require Import List NArith Bool Arith.
From Verif Require Import M_Bytes M_Config M_Packer M_Send M_Wire M_Rx M_Path.
From Verif Require M_Handle.
Import ListNotations.

(** [t_up]: the link to the server was established; [t_c]: the callback is running, with its result so far *)
Record tst (S1 S2 : Type) : Type := mk_t { t_a : pst S1; t_b : pst S2; t_up : bool; t_c : option bool }.
Arguments mk_t {S1 S2}. Arguments t_a {S1 S2}. Arguments t_b {S1 S2}. Arguments t_up {S1 S2}. Arguments t_c {S1 S2}.

Inductive tact : Type :=
| TA (a : pact)                  (* the client sends, the server receives *)
| TB (a : pact)                  (* the server's library sends, the client receives and handles *)
| TBegin | TThread | TEnd.       (* the server's callback *)

(** what the callback does itself, and what it does not *)
Definition a_own (a : pact) : bool := match a with PHand (M_Handle.HTake _) | PHand (M_Handle.HRet _) => false | _ => true end.
Definition b_own (a : pact) : bool :=
  match a with
  | PCall _ _ _ _ | PCallS _ _ _ | PBeat _ => false
  | PWire (WSend (AThread i)) => (i =? 1)%nat
  | PWire (WSend AUser) => false
  | PWire (WUp i) => (i =? 1)%nat
  | _ => true
  end.
Definition is_wup (a : pact) : bool := match a with PWire (WUp _) => true | _ => false end.
(** the message in the callback *)
Definition at_hand {S} (s : pst S) : option (list byte) :=
  match M_Handle.h_d (p_h s), M_Handle.h_held (p_h s) with M_Handle.DIn, Some m => Some (body (p_tab s) m) | _, _ => None end.
(** do_direct_send_msg was reached *)
Definition queued1 (t : list pev) : bool := existsb (fun e => match e with PV (WL (LEnq _ _)) => true | _ => false end) t.

Section Talk.
Context {S1 S2 : Type} (c1 c2 : pcfg) (u1 : unpk S1) (i1 : S1) (u2 : unpk S2) (i2 : S2).
(** a step: the new state, what happened on the way to the server, what happened on the way back *)
Definition tstep (s : tst S1 S2) (a : tact) : option (tst S1 S2 * list pev * list pev) :=
  match a with
  | TA a =>
      if a_own a && negb (is_wup a && t_up s) then
        match pstep c1 u1 i1 (t_a s) a with Some (x, e) => Some (mk_t x (t_b s) (t_up s || is_wup a) (t_c s), e, []) | None => None end
      else None
  | TB a => if b_own a then match pstep c2 u2 i2 (t_b s) a with Some (x, e) => Some (mk_t (t_a s) x (t_up s) (t_c s), [], e) | None => None end else None
  | TBegin =>
      match t_c s, at_hand (t_a s) with
      | None, Some m =>
          if (lenN m <? size_range (pc c2))%N then                             (* the size of an object *)
            match pstep c2 u2 i2 (t_b s) (PCall 0 (AOne m) false false) with Some (x, e) => Some (mk_t (t_a s) x (t_up s) (Some false), [], e) | None => None end
          else None
      | _, _ => None
      end
  | TThread =>
      match t_c s with
      | Some ok => match pstep c2 u2 i2 (t_b s) (PWire (WSend (AThread 0))) with
                   | Some (x, e) => Some (mk_t (t_a s) x (t_up s) (Some (ok || queued1 e)), [], e) | None => None end
      | None => None
      end
  | TEnd =>
      match t_c s, nth_error (threads (w_s (p_w (t_b s)))) 0 with
      | Some ok, Some None => match pstep c1 u1 i1 (t_a s) (PHand (M_Handle.HRet ok)) with
                              | Some (x, e) => Some (mk_t x (t_b s) (t_up s) None, e, []) | None => None end
      | _, _ => None
      end
  end.
Fixpoint truns (s : tst S1 S2) (l : list tact) : option (tst S1 S2 * list pev * list pev) :=
  match l with
  | [] => Some (s, [], [])
  | a :: l' => match tstep s a with
               | Some (s1, x1, y1) => match truns s1 l' with Some (s2, x2, y2) => Some (s2, x1 ++ x2, y1 ++ y2) | None => None end
               | None => None
               end
  end.
(** n threads of the client *)
Definition talk0 (n : nat) : tst S1 S2 := mk_t (p_init u1 i1 n) (p_init u2 i2 2) false None.
End Talk.
