(** What the notifications are required to say. *)
From Coq Require Import List NArith Bool Permutation.
From Verif Require Import M_Bytes M_Queue M_Send S_Send M_Notify.
Import ListNotations.

(** what the sending side showed *)
Fixpoint nlab (t : list nev) : list label := match t with [] => [] | NL l :: t' => l :: nlab t' | _ :: t' => nlab t' end.
(** items of the send buffer whose write succeeded, failed *)
Fixpoint went (tr : list label) : list item := match tr with [] => [] | LOk w :: tr' => w ++ went tr' | _ :: tr' => went tr' end.
Fixpoint broke (tr : list label) : list item := match tr with [] => [] | LErr w :: tr' => w ++ broke tr' | _ :: tr' => broke tr' end.
(** what the application was told *)
Fixpoint told (t : list nev) : list item := match t with [] => [] | NSent m :: t' => m :: told t' | NSents ms :: t' => ms ++ told t' | _ :: t' => told t' end.
Fixpoint told_broken (t : list nev) : list item := match t with [] => [] | NFailed ms :: t' => ms ++ told_broken t' | _ :: t' => told_broken t' end.

(** a write succeeded, and since then the application was not told that all was sent, nor did a write fail *)
Definition owed (t : list nev) : bool :=
  fold_left (fun b e => match e with NL (LOk _) => true | NL (LErr _) | NAll _ => false | _ => b end) t false.
(** the last message of the last write that succeeded *)
Definition latest (tr : list label) : option item := fold_left (fun x l => match l with LOk w => last (map Some w) None | _ => x end) tr None.
(** everything that was put into the send buffer was sent, or its write failed *)
Definition all_gone (tr : list label) : Prop := Permutation (queued tr) (went tr ++ broke tr).

(** no handler of the socket is running and no write is in flight *)
Definition at_rest (s : sstate) : Prop := strand s = [] /\ writes s = [].
