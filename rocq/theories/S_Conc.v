(** Connections of a server, counted in the trace. *)
From Coq Require Import List Arith Bool.
From Verif Require Import M_Conc.
Import ListNotations.

Definition count (f : dev -> bool) (t : list dev) : nat := length (filter f t).
Definition kept (e : dev) : bool := match e with DAccepted b => b | _ => false end.
Definition refused (e : dev) : bool := match e with DAccepted b => negb b | _ => false end.
Definition closed (e : dev) : bool := match e with DClosed => true | _ => false end.
(** links at the end of the trace *)
Definition links (t : list dev) : nat := count kept t - count closed t.
(** the server can go on without a client doing anything until a connection is accepted *)
Definition listens (c : dcfg) (s : dst) : Prop := exists k s1 t1, drun c s (repeat DDecide k ++ [DAccept]) = Some (s1, t1).
