(** What the sending side of a TCP socket tells the application: on_msg_send for every message that was sent
    (ST_ASIO_WANT_MSG_SEND_NOTIFY) or for those of one write (ST_ASIO_WANT_BATCH_MSG_SEND_NOTIFY), on_all_msg_send when the send
    buffer is empty (ST_ASIO_WANT_ALL_MSG_SEND_NOTIFY), on_send_error for those of a write that failed. On top of M_Send.v.

    Sources: include/tcp/socket.h:410-460 (send_handler), 45-52 (batch_msg_send_size), 249-262; include/socket.h:377-386;
    include/config.h:1112-1121.

    Simplifications: those of M_Send.v. The callbacks may call send functions (ACallS) and, where they get the container, may take
    messages out of it or change it in any way; where they get one message, changing it is left out. *)
From Coq Require Import List NArith Bool Arith.
From Verif Require Import M_Bytes M_Queue M_Send.
Import ListNotations.

(** which macros are defined; the first one goes before the second one (include/tcp/socket.h:424-426) *)
Record ncfg : Type := mk_nc { nc_s : send_cfg; nc_msg : bool; nc_batch : bool; nc_all : bool }.
(** batch_msg_send_size, include/tcp/socket.h:45-52; size_t has more than one value *)
Definition nc_ok (c : ncfg) : Prop := (1 < sc_W (nc_s c))%N /\ (nc_msg c = true -> batch_size (nc_s c) = 0%N).

(** where send_handler is; the list is sending_msgs *)
Inductive stage : Type :=
| SNone                       (* not in it, or past the callbacks *)
| SMsg (w : list item)        (* in on_msg_send(msg) *)
| SBatch (w : list item)      (* in on_msg_send(msg_can) *)
| SLook (w : list item)       (* before send_buffer.is_empty(), include/tcp/socket.h:430 *)
| SAll                        (* in on_all_msg_send *)
| SFail.                      (* in on_send_error *)

Record nst : Type := mk_n { n_s : sstate; n_at : stage }.
Inductive nev : Type :=
| NL (l : label)
| NSent (m : item)            (* on_msg_send(msg) is called *)
| NSents (ms : list item)     (* on_msg_send(msg_can) is called *)
| NAll (m : option item)      (* on_all_msg_send is called; None: with an empty message *)
| NFailed (ms : list item).   (* on_send_error is called *)

Inductive nact : Type :=
| NDo (a : action)            (* see inner *)
| NDone (ok : bool)           (* the write completed *)
| NRet (rest : list item)     (* a callback returns, with this in its container *)
| NLook.                      (* send_buffer.is_empty() *)

(** in application code: it may call send functions *)
Definition in_app (x : stage) : bool := match x with SLook _ => false | _ => true end.
Definition inner (x : stage) (a : action) : bool :=
  match a with
  | AComplete _ _ => false
  | AUserRet => match x with SNone => true | _ => false end
  | ACallS _ _ _ => in_app x
  | _ => true
  end.
(** the handler goes on behind the callbacks (M_Send.v: AUserRet) *)
Definition finish (c : ncfg) (s : sstate) : option (nst * list nev) :=
  match act (nc_s c) s AUserRet with Some (s', l) => Some (mk_n s' SNone, [NL l]) | None => None end.
(** application code is running on top of the strand's stack: no send function that it called is *)
Definition on_top (s : sstate) : bool := match strand s with FUser :: _ => true | _ => false end.
(** include/tcp/socket.h:429-444, on_all_msg_send or not at all *)
Definition look (c : ncfg) (s : sstate) (w : list item) : option (nst * list nev) :=
  if nc_all c then Some (mk_n s (SLook w), []) else finish c s.

Definition nstep (c : ncfg) (s : nst) (a : nact) : option (nst * list nev) :=
  match a with
  | NDo a =>
      if inner (n_at s) a then match act (nc_s c) (n_s s) a with Some (s', l) => Some (mk_n s' (n_at s), [NL l]) | None => None end else None
  | NDone ok =>
      match writes (n_s s) with
      | w :: _ =>
          match act (nc_s c) (n_s s) (AComplete 0 ok) with
          | Some (s', l) =>
              if negb ok then Some (mk_n s' SFail, [NL l; NFailed w])
              else if nc_msg c then match w with m :: _ => Some (mk_n s' (SMsg w), [NL l; NSent m]) | [] => None end
              else if nc_batch c then Some (mk_n s' (SBatch w), [NL l; NSents w])
              else if nc_all c then Some (mk_n s' (SLook w), [NL l])
              else match finish c s' with Some (x, t) => Some (x, NL l :: t) | None => None end
          | None => None
          end
      | [] => None
      end
  | NRet rest =>
      if on_top (n_s s) then
        match n_at s with
        | SMsg w => look c (n_s s) w
        | SBatch _ => look c (n_s s) rest
        | SAll | SFail => finish c (n_s s)
        | SNone | SLook _ => None
        end
      else None
  | NLook =>
      match n_at s with
      | SLook w =>
          match sb (n_s s) with
          | [] => Some (mk_n (n_s s) SAll, [NAll (last (map Some w) None)])
          | _ => finish c (n_s s)
          end
      | _ => None
      end
  end.
Fixpoint nrun (c : ncfg) (s : nst) (l : list nact) : option (nst * list nev) :=
  match l with
  | [] => Some (s, [])
  | a :: l' =>
    match nstep c s a with
    | None => None
    | Some (s1, t1) => match nrun c s1 l' with None => None | Some (s2, t2) => Some (s2, t1 ++ t2) end
    end
  end.
Definition n_init (n : nat) : nst := mk_n (send_init n) SNone.
