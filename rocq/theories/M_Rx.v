(** The receive loop of a TCP socket, generic in the unpacker:
    reader_writer::async_read (include/tcp/socket.h:29-44), the composed operation
    boost::asio::async_read it starts, and recv_handler (include/tcp/socket.h:347-382).

    Simplifications: one link without write side; [handle_msg] is the hand-over of the
    parsed messages (its queueing is modelled in M_Dispatch); macro ST_ASIO_PASSIVE_RECV
    is not defined, and the receive buffer is assumed available (see M_Dispatch for the
    back-pressure), so a completed read without error is followed by the next one. *)
From Coq Require Import List NArith Bool.
From Verif Require Import M_Bytes.
Import ListNotations.
Open Scope N_scope.

(** The part of i_unpacker (include/base.h:262-294) the receive loop uses.
    [u_space]  = buffer_size(prepare_next_recv())
    [u_write]  = asio storing received bytes at an offset of that buffer
    [u_cc]     = completion_condition without error
    [u_parse]  = parse_msg(bytes_transferred, msg_can), giving the messages and the result
    [u_reset]  = reset() *)
Record unpk (S : Type) : Type := mk_unpk {
  u_space : S -> res (S * N);
  u_write : S -> N -> list byte -> res S;
  u_cc    : S -> N -> res (S * N);
  u_parse : S -> N -> res (S * list (list byte) * bool);
  u_reset : S -> S
}.
Arguments u_space {S}. Arguments u_write {S}. Arguments u_cc {S}.
Arguments u_parse {S}. Arguments u_reset {S}.

Inductive halt : Type :=
| EmptyBuffer          (* include/tcp/socket.h:33-37 "the unpacker returned an empty buffer, quit receiving" *)
| ZeroByteRead         (* include/tcp/socket.h:371-375 "read 0 byte without any errors" *)
| Crash (b : bad).

(** A receive chain is either waiting for bytes or has ended. *)
Inductive rxst (S : Type) : Type :=
| Reading (s : S)        (* unpacker state *)
          (space : N)    (* size of the buffer given to async_read *)
          (total : N)    (* bytes already transferred by this async_read *)
          (lim : N)      (* the most the next async_read_some may transfer *)
| Halted (h : halt).
Arguments Reading {S}. Arguments Halted {S}.

(** What a finished read hands to the application (include/tcp/socket.h:352-370):
    the messages and whether on_unpack_error was called. *)
Record rxout : Type := mk_rxout { out_msgs : list (list byte); out_err : bool }.

(** do_recv_msg -> async_read (include/tcp/socket.h:29-44, 329-345). boost::asio::async_read
    first asks the completion condition with 0 bytes; a zero answer makes it complete at once
    with 0 bytes and no error. *)
Definition start_read {S} (u : unpk S) (s : S) : rxst S :=
  match u_space u s with
  | Bad b => Halted (Crash b)
  | Ok (s1, sp) =>
    if sp =? 0 then Halted EmptyBuffer
    else match u_cc u s1 0 with
         | Bad b => Halted (Crash b)
         | Ok (s2, m) => if m =? 0 then Halted ZeroByteRead
                         else Reading s2 sp 0 (N.min m sp)
         end
  end.

(** recv_handler with !ec and bytes_transferred = t > 0 (include/tcp/socket.h:352-370) *)
Definition complete_read {S} (u : unpk S) (s : S) (t : N) : rxst S * list rxout :=
  match u_parse u s t with
  | Bad b => (Halted (Crash b), [])
  | Ok (s1, msgs, ok) =>
    let s2 := if ok then s1 else u_reset u s1 in
    (start_read u s2, [mk_rxout msgs (negb ok)])
  end.

(** One async_read_some of the composed read delivers [d]. [None]: not a possible event
    (no bytes, more than asked for, or nobody is reading). [ask_when_full]: whether asio asks the
    completion condition also when the buffer became full (older versions do). *)
Definition feed {S} (ask_when_full : bool) (u : unpk S) (st : rxst S) (d : list byte)
  : option (rxst S * list rxout) :=
  match st with
  | Halted _ => None
  | Reading s sp t lim =>
    if (lenN d =? 0) || (lim <? lenN d) then None
    else Some (
      match u_write u s t d with
      | Bad b => (Halted (Crash b), [])
      | Ok s1 =>
        let t' := t + lenN d in
        if (sp <=? t') && negb ask_when_full then complete_read u s1 t'
        else match u_cc u s1 t' with
             | Bad b => (Halted (Crash b), [])
             | Ok (s2, m) =>
               if (m =? 0) || (sp <=? t') then complete_read u s2 t'
               else (Reading s2 sp t' (N.min m (sp - t')), [])
             end
      end)
  end.

(** A whole run: the list of byte blocks successive async_read_some calls delivered. *)
Fixpoint run {S} (awf : bool) (u : unpk S) (st : rxst S) (ds : list (list byte))
  : option (rxst S * list rxout) :=
  match ds with
  | [] => Some (st, [])
  | d :: ds' =>
    match feed awf u st d with
    | None => None
    | Some (st1, o1) =>
      match run awf u st1 ds' with
      | None => None
      | Some (st2, o2) => Some (st2, o1 ++ o2)
      end
    end
  end.

(** recv_handler with an error, e.g. the peer closed (include/tcp/socket.h:347-382): data of the
    interrupted read is still parsed, errors are not reported to on_unpack_error, and the chain ends. *)
Definition read_error {S} (u : unpk S) (st : rxst S) : res (option S * list (list byte)) :=
  match st with
  | Halted _ => Ok (None, [])
  | Reading s sp t lim =>
    if t =? 0 then Ok (Some s, [])
    else match u_parse u s t with
         | Bad b => Bad b
         | Ok (s1, msgs, ok) => Ok (Some (if ok then s1 else u_reset u s1), msgs)
         end
  end.

Definition all_msgs (os : list rxout) : list (list byte) := concat (map out_msgs os).
Definition any_err (os : list rxout) : bool := existsb out_err os.
