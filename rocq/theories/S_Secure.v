(** What is required of a TLS or web socket link. *)
From Coq Require Import List Bool Arith.
From Verif Require Import M_Secure.
Import ListNotations.

(** the order of what can be observed in the life of a link *)
Inductive phase : Type := Off | Begun | Shaken | Up | Failed.
Definition see (p : option phase) (e : ev) : option phase :=
  match p, e with
  | Some Off, EStart => Some Begun
  | Some Begun, EHandshake true => Some Shaken
  | Some Begun, EHandshake false => Some Failed
  | Some Shaken, EConnect => Some Up
  | Some Up, ERead => Some Up
  | Some Begun, EClose _ | Some Up, EClose _ | Some Failed, EClose _ => Some Off
  | _, EStart | _, EHandshake _ | _, EConnect | _, ERead | _, EClose _ => None
  | _, _ => p
  end.
Definition watch (t : list ev) : option phase := fold_left see t (Some Off).

(** the library goes on by itself: the peer is silent, the application only handles the messages it has received *)
Definition lib (c : cfg) (s : qst) (a : act) : bool :=
  match a with
  | QHandEnd | QHandled | QResume | QErr | QRun | QMon | QOnClose => true
  | QConn false => negb (q_started s)     (* connecting is aborted *)
  | QSdDone => negb (q_up s) || match c_layer c with WS => true | TLS => false end
  | _ => false
  end.
Fixpoint alone (c : cfg) (s : qst) (l : list act) : Prop :=
  match l with
  | [] => True
  | a :: l' => lib c s a = true /\ match step c s a with Some (s1, _) => alone c s1 l' | None => True end
  end.
(** left to itself, the library comes to an event *)
Definition comes (c : cfg) (s : qst) (f : ev -> bool) : Prop := exists k s' t', alone c s k /\ run c s k = Some (s', t') /\ existsb f t' = true.
Definition is_close (e : ev) : bool := match e with EClose _ => true | _ => false end.
Definition is_handshake (e : ev) : bool := match e with EHandshake _ => true | _ => false end.

(** the wish that was expressed last; every closing restarts exactly when that is the last wish *)
Fixpoint obeyed (w : bool) (t : list ev) : bool :=
  match t with
  | [] => true
  | EWish b :: t' => obeyed b t'
  | EClose b :: t' => Bool.eqb b w && obeyed w t'
  | _ :: t' => obeyed w t'
  end.
Fixpoint wish (w : bool) (t : list ev) : bool := match t with [] => w | EWish b :: t' => wish b t' | _ :: t' => wish w t' end.
