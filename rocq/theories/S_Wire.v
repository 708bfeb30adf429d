(** Specification of what a link carries, in terms of what an observer sees. *)
From Coq Require Import List NArith Bool.
From Verif Require Import M_Bytes M_Queue M_Send S_Send M_Wire.
Import ListNotations.
Open Scope nat_scope.

(** what happened since the present (last) link was established *)
Definition cur (tr : list wev) : list wev := fold_left (fun acc e => match e with WL LUp => [] | _ => acc ++ [e] end) tr [].
(** the bytes on the wire *)
Fixpoint wire (tr : list wev) : list byte := match tr with [] => [] | WBytes d :: tr' => d ++ wire tr' | _ :: tr' => wire tr' end.
(** what the sending side showed *)
Fixpoint labels (tr : list wev) : list label := match tr with [] => [] | WL l :: tr' => l :: labels tr' | _ :: tr' => labels tr' end.
(** messages of the writes that were reported as successful; messages of the writes that were started *)
Fixpoint sent (tr : list wev) : list (list byte) := match tr with [] => [] | WL (LOk w) :: tr' => w ++ sent tr' | _ :: tr' => sent tr' end.
Fixpoint begun (tr : list wev) : list (list byte) := match tr with [] => [] | WL (LWrite w) :: tr' => w ++ begun tr' | _ :: tr' => begun tr' end.
(** number of links established *)
Fixpoint ups (tr : list wev) : nat := match tr with [] => 0 | WL LUp :: tr' => S (ups tr') | _ :: tr' => ups tr' end.
(** the bytes on the wire are whole messages, one after another as they were handed over; only the last one may be cut *)
Inductive whole (tr : list wev) : Prop :=
| all_whole : wire tr = concat (begun tr) -> whole tr
| one_cut ms m more part cut : begun tr = ms ++ m :: more -> m = part ++ cut -> wire tr = concat ms ++ part -> whole tr.
(** what happened before the present link was established, its establishment included *)
Definition former (tr : list wev) : list wev :=
  fst (fold_left (fun '(f, a) e => match e with WL LUp => (f ++ a ++ [e], []) | _ => (f, a ++ [e]) end) tr ([], [])).
(** the bytes on the present link are those of sent frames (what one call of a send function sends), one after another, from the start
    of the first one; the last one may be unfinished *)
Definition framed_link (tr : list wev) : Prop :=
  exists fs rest, Forall (fun f => In f (frames (labels tr))) fs /\ concat fs = wire (cur tr) ++ rest.
