(** The files on both sides of a file transfer that may fail.

    Source: file_client/file_client.h:38-64 (get_file opens the local file with "w+b" before it asks), 66-84 (truncate_file), 86-126
    (put_file), 255-345 (the answers); file_server/file_socket.cpp:95-118 (order 0), 153-178 (order 10: "w+b"), 179-215 (order 11).

    Simplified: one link (the parts of several links are in C54 and C75, one link in detail in M_FileLink.v); what was written is in the file
    at once; the order for contents and its answer are one step with the one before; the files are changed by transfers only; a link that
    breaks ends the transfer (that the client stays busy then is in C154). *)
From Coq Require Import List Bool Arith.
Import ListNotations.

Section K.
Context {B : Type}.
(** a directory; who may open which file is given by kcfg *)
Definition disk : Type := nat -> option (list B).
Definition write (d : disk) (f : nat) (x : list B) : disk := fun g => if g =? f then Some x else d g.
Record kcfg : Type := mk_kc { read_here : nat -> bool; write_here : nat -> bool; read_there : nat -> bool; write_there : nat -> bool }.
(** the transfer: none, asked for, a part done with the rest of the source *)
Inductive kjob : Type := KIdle | KGet (f : nat) | KGetting (f : nat) (rest : list B) | KPut (f : nat) | KPutting (f : nat) (rest : list B).
Record kst : Type := mk_k { here : disk; there : disk; job : kjob }.
Inductive kev : Type := EOk | EFailed.
Inductive kact : Type :=
| UGet (f : nat) | UPut (f : nat)      (* the user's commands *)
| SAnswer                              (* the server answers *)
| Block (n : nat)                      (* the receiver writes n bytes *)
| Lost.                                (* the link breaks *)
Definition kstep (c : kcfg) (s : kst) (a : kact) : option (kst * list kev) :=
  match a, job s with
  | UGet f, KIdle =>                                                       (* file_client.h:38-64 *)
      if write_here c f then Some (mk_k (write (here s) f []) (there s) (KGet f), [])
      else Some (s, [EFailed])
  | UPut f, KIdle => Some (mk_k (here s) (there s) (KPut f), [])           (* 66-84: nobody looks at the local file yet *)
  | SAnswer, KGet f =>                                                     (* file_socket.cpp:95-118, file_client.h:257-297 *)
      match (if read_there c f then there s f else None) with
      | None => Some (mk_k (here s) (there s) KIdle, [EFailed])
      | Some [] => Some (mk_k (here s) (there s) KIdle, [EOk])
      | Some d => Some (mk_k (here s) (there s) (KGetting f d), [])
      end
  | SAnswer, KPut f =>                                                     (* file_socket.cpp:153-178, file_client.h:298-315, 86-126 *)
      if write_there c f then
        match (if read_here c f then here s f else None) with
        | None => Some (mk_k (here s) (write (there s) f []) KIdle, [EFailed])
        | Some [] => Some (mk_k (here s) (write (there s) f []) KIdle, [EOk])
        | Some d => Some (mk_k (here s) (write (there s) f []) (KPutting f d), [])
        end
      else Some (mk_k (here s) (there s) KIdle, [EFailed])
  | Block n, KGetting f rest =>
      if (1 <=? n) && (n <=? length rest) then
        match here s f with
        | Some old => let h := write (here s) f (old ++ firstn n rest) in
                      if n =? length rest then Some (mk_k h (there s) KIdle, [EOk]) else Some (mk_k h (there s) (KGetting f (skipn n rest)), [])
        | None => None
        end
      else None
  | Block n, KPutting f rest =>
      if (1 <=? n) && (n <=? length rest) then
        match there s f with
        | Some old => let h := write (there s) f (old ++ firstn n rest) in
                      if n =? length rest then Some (mk_k (here s) h KIdle, [EOk]) else Some (mk_k (here s) h (KPutting f (skipn n rest)), [])
        | None => None
        end
      else None
  | Lost, KIdle => None
  | Lost, _ => Some (mk_k (here s) (there s) KIdle, [EFailed])
  | _, _ => None
  end.
Fixpoint krun (c : kcfg) (s : kst) (l : list kact) : option (kst * list kev) :=
  match l with
  | [] => Some (s, [])
  | a :: l' => match kstep c s a with
               | Some (s1, e1) => match krun c s1 l' with Some (s2, e2) => Some (s2, e1 ++ e2) | None => None end
               | None => None
               end
  end.
End K.
