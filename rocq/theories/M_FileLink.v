(** One link between the file client and the file server, over any number of transfers: file_client/file_client.h:26-357 (file_socket),
    file_server/file_socket.cpp, file_common/file_buffer.h, file_common/unpacker.h, the protocol of file_common/common.h:28-52.

    The order in which handlers run is open. The server handles messages in the strand that dispatches messages, and is told that a write has
    been completed in another strand (include/tcp/socket.h:384-450: on_msg_send, then do_send_msg, which clears the flag
    is_sending() reads): there are 16 service threads and 8 io_contexts (file_server.cpp:61), so the peer can answer before the handler of the write runs
    (the client looks every 50 ms whether it can begin the next transfer, file_client.h:437-475; that may be right after the last byte came).

    Simplifications: the link stays up; TCP delivers everything in order; what is written is on its way when the write begins; a message is
    handled when it is received (with ST_ASIO_PASSIVE_RECV, the next read is started after that); the files do not change meanwhile (uploads go to
    other files than downloads); reading an existing range and writing never fail; the client's own files can be opened for
    writing; put_file is called for idle links only (transmit_file waits for that, file_client.h:399-475); order 3 (ids of sockets) is left
    out, talking (order 2) stands for the orders without an answer; file names are numbers. *)
From Coq Require Import List ZArith Bool Arith.
From Verif Require Import M_Bytes M_File.
Import ListNotations.
Open Scope Z_scope.

(** common.h:28-52; file_socket.cpp:93-232 (orders), file_client.h:255-352 (answers) *)
Inductive order : Type := O0 (f : nat) | O1 (o n : Z) | O2 | O10 (f : nat) | O11 (o n : Z) (f : nat).
Inductive answer : Type := R0 (len : Z) | R10 (ok : bool) (f : nat) | R11 (n : Z) (ok : bool).
(** what is under way: a packed message, or a byte of a file *)
Inductive item (M : Type) : Type := IM (m : M) | IB (b : byte).
Arguments IM {M}. Arguments IB {M}.

(** common.h:61 *)
Inductive tst : Type := IDLE | PREPARE | BUSY.
(** the file_unpacker: name, offset, what is left, what was written *)
Record raw : Type := mk_raw { r_f : nat; r_o : Z; r_left : Z; r_got : list byte }.
(** a file_buffer: the FILE it reads (a number used once), its contents, position, what is left to read *)
Record fbuf : Type := mk_fb { b_h : nat; b_file : list byte; b_pos : Z; b_total : Z }.
(** a message in the server's send queue; a file_buffer with the block it has read *)
Inductive out : Type := OMsg (r : answer) | OBlk (d : list byte) (b : fbuf).
(** a write: its handler has not run yet; on_msg_send has returned, the flag is about to be cleared *)
Inductive sph : Type := SOut (x : out) | SEnd.
Record srv : Type := mk_v {
  v_st : tst;
  v_file : option (nat * list byte);   (* FILE and contents *)
  v_next : nat;
  v_raw : option raw;                  (* None: the default unpacker *)
  v_send : option sph;                 (* None: is_sending() is false *)
  v_q : list out
}.
(** what the client's file_socket does with its file *)
Inductive job : Type := JNone | JGet (f : nat) | JTrunc (f : nat) | JPut (f : nat) (data : list byte) (pos : Z).
Record cli : Type := mk_c { c_st : tst; c_job : job; c_raw : option raw; c_up : option fbuf }.   (* c_up: a block is being written *)
Record fst : Type := mk_f { f_c : cli; f_v : srv; f_cs : list (item order); f_sc : list (item answer); f_dead : bool }.

Record fcfg : Type := mk_fc {
  nd : bool;                           (* NDEBUG *)
  num : Z; idx : Z;                    (* link_num, index *)
  F : nat -> option (list byte);       (* the server's files *)
  C : nat -> option (list byte);       (* the client's files *)
  U : nat -> bool                      (* the server can create the file *)
}.

Inductive fev : Type :=
| EGet (f : nat) | EGot (f : nat) (o : Z) (l : list byte) | ENoGet (f : nat)   (* a download: begun; ended, written at o; there is no such file *)
| EPut (f : nat) | ESent (f : nat) | ENoPut (f : nat) | EPut0 (f : nat)        (* an upload: begun; sent; failed; nothing to send *)
| EStored (f : nat) (o : Z) (l : list byte)                                    (* the server wrote an upload *)
| EIgnored (m : order)                                                         (* the server ignored an order because it is sending *)
| EDropped (m : order)                                                         (* ... because it takes it for the end of a transfer *)
| EAbort                                                                       (* an assertion fails *)
| EGarbled                                                                     (* bytes of a file are taken for messages or the other way round *)
| EClosed                                                                      (* a closed FILE is used *)
| EOverflow.                                                                   (* signed overflow; a read of no or of "negative" length *)

Definition set_c (s : fst) (c : cli) : fst := mk_f c (f_v s) (f_cs s) (f_sc s) (f_dead s).
Definition set_v (s : fst) (v : srv) : fst := mk_f (f_c s) v (f_cs s) (f_sc s) (f_dead s).
Definition set_cs (s : fst) (l : list (item order)) : fst := mk_f (f_c s) (f_v s) l (f_sc s) (f_dead s).
Definition set_sc (s : fst) (l : list (item answer)) : fst := mk_f (f_c s) (f_v s) (f_cs s) l (f_dead s).
Definition die (s : fst) : fst := mk_f (f_c s) (f_v s) (f_cs s) (f_sc s) true.
Definition ask (s : fst) (m : order) : fst := set_cs s (f_cs s ++ [IM m]).

(** ** the client *)
Definition c_idle : cli := mk_c IDLE JNone None None.
(** put_file, file_client.h:86-126 *)
Definition put_file (c : fcfg) (s : fst) (f : nat) : fst * list fev :=
  match C c f with
  | None => (set_c s c_idle, [ENoPut f])
  | Some d =>
      let '(o, n) := slice (zlen d) (num c) (idx c) in
      if 0 <? n then (ask (set_c s (mk_c PREPARE (JPut f d o) None None)) (O11 o n f), []) else (set_c s c_idle, [EPut0 f])
  end.
(** a block is written, or nothing is left: on_msg_send, file_client.h:183-198, and the constructor of file_buffer *)
Definition c_block (s : fst) (f : nat) (d : list byte) (pos total : Z) : fst * list fev :=
  match fb_read d pos total with
  | (Some [], _, _) => (set_c s c_idle, [ESent f])
  | (Some b, p, n) => (set_cs (set_c s (mk_c BUSY (JPut f d p) None (Some (mk_fb 0 d p n)))) (f_cs s ++ map IB b), [])
  | (None, _, _) => (set_c s c_idle, [ENoPut f])
  end.
(** handle_msg, file_client.h:232-353, with a message *)
Definition c_msg (c : fcfg) (s : fst) (m : answer) : fst * list fev :=
  let k := f_c s in
  match c_st k with
  | BUSY => if nd c then (set_c s c_idle, [EGarbled]) else (die s, [EAbort])          (* 234-248 *)
  | st =>
      match m, st, c_job k with
      | R0 len, PREPARE, JGet f =>                                                     (* 257-297 *)
          if len =? -1 then (set_c s c_idle, [ENoGet f])
          else let '(o, n) := slice len (num c) (idx c) in
               if 0 <? n then (ask (set_c s (mk_c BUSY (JGet f) (Some (mk_raw f o n [])) None)) (O1 o n), [])
               else (set_c s c_idle, [EGot f o []])
      | R10 ok f', PREPARE, JTrunc f => if ok then put_file c s f' else (set_c s c_idle, [ENoPut f])   (* 298-315 *)
      | R11 n ok, PREPARE, JPut f d pos => if ok then c_block s f d pos n else (set_c s c_idle, [ENoPut f])   (* 316-345 *)
      | _, _, _ => (s, [])
      end
  end.

(** ** the server *)
(** trans_end, file_socket.cpp:60-68 *)
Definition v_end (v : srv) (reset : bool) : srv := mk_v IDLE None (v_next v) (if reset then None else v_raw v) (v_send v) (v_q v).
Definition bytes_of (x : out) : list (item answer) := match x with OMsg r => [IM r] | OBlk d _ => map IB d end.
(** send_msg, direct_send_msg *)
Definition v_put (s : fst) (v : srv) (x : out) : fst :=
  match v_send v with
  | None => set_sc (set_v s (mk_v (v_st v) (v_file v) (v_next v) (v_raw v) (Some (SOut x)) (v_q v))) (f_sc s ++ bytes_of x)
  | Some _ => set_v s (mk_v (v_st v) (v_file v) (v_next v) (v_raw v) (v_send v) (v_q v ++ [x]))
  end.
Definition sending (v : srv) : bool := match v_send v with None => false | Some _ => true end.
(** handle_msg, file_socket.cpp:70-232, with a message *)
Definition v_msg (c : fcfg) (s : fst) (m : order) : fst * list fev :=
  let v := f_v s in
  match v_st v with
  | BUSY => if nd c then (set_v s (v_end v true), [EDropped m]) else (die s, [EAbort])             (* 72-86 *)
  | st =>
      match m with
      | O0 f =>                                                                                    (* 95-123 *)
          if sending v then (s, [EIgnored m])
          else match F c f with
               | Some d => (v_put s (mk_v PREPARE (Some (v_next v, d)) (S (v_next v)) None (v_send v) (v_q v)) (OMsg (R0 (zlen d))), [])
               | None => (v_put s (v_end v true) (OMsg (R0 (-1))), [])
               end
      | O1 o n =>                                                                                  (* 124-152 *)
          match st, v_file v with
          | PREPARE, Some (h, d) =>
              match server_accepts (zlen d) o n with
              | Ok true =>
                  match fb_read d o n with
                  | (Some b, p, r) => (v_put s (mk_v BUSY (v_file v) (v_next v) (v_raw v) (v_send v) (v_q v)) (OBlk b (mk_fb h d p r)), [])
                  | (None, _, _) => (set_v s (v_end v true), [])
                  end
              | Ok false => (set_v s (v_end v true), [])
              | Bad _ => (die s, [EOverflow])
              end
          | _, _ => (s, [])
          end
      | O2 => (s, [])                                                                              (* 216-218 *)
      | O10 f => if sending v then (s, [EIgnored m]) else (v_put s (v_end v true) (OMsg (R10 (U c f) f)), [])   (* 153-179 *)
      | O11 o n f =>                                                                               (* 180-215 *)
          if sending v then (s, [EIgnored m])
          else if U c f then (v_put s (mk_v BUSY (Some (v_next v, [])) (S (v_next v)) (Some (mk_raw f o n [])) (v_send v) (v_q v)) (OMsg (R11 n true)), [])
          else (v_put s (v_end v true) (OMsg (R11 n false)), [])
      end
  end.
(** on_msg_send, file_socket.cpp:33-48 *)
Definition v_sent (s : fst) (x : out) : fst * list fev :=
  let v := f_v s in
  let fin v' := mk_v (v_st v') (v_file v') (v_next v') (v_raw v') (Some SEnd) (v_q v') in
  match x with
  | OMsg _ => (set_v s (fin v), [])
  | OBlk _ b =>
      if b_total b <=? 0 then (set_v s (fin (v_end v false)), [])
      else if match v_file v with Some (h, _) => Nat.eqb h (b_h b) | None => false end then
        match fb_read (b_file b) (b_pos b) (b_total b) with
        | (Some d, p, n) => (set_v s (fin (mk_v (v_st v) (v_file v) (v_next v) (v_raw v) (v_send v) (v_q v ++ [OBlk d (mk_fb (b_h b) (b_file b) p n)]))), [])
        | (None, _, _) => (set_v s (fin (v_end v false)), [])
        end
      else (die s, [EClosed])
  end.
(** the rest of send_handler: do_send_msg(true), include/tcp/socket.h:384-407 *)
Definition v_clear (s : fst) : fst :=
  let v := f_v s in
  match v_q v with
  | [] => set_v s (mk_v (v_st v) (v_file v) (v_next v) (v_raw v) None [])
  | x :: q => set_sc (set_v s (mk_v (v_st v) (v_file v) (v_next v) (v_raw v) (Some (SOut x)) q)) (f_sc s ++ bytes_of x)
  end.

(** n bytes of a file at the head of what is under way *)
Fixpoint bytes_at {M} (n : nat) (l : list (item M)) : option (list byte * list (item M)) :=
  match n, l with
  | O, _ => Some ([], l)
  | S k, IB b :: l' => match bytes_at k l' with Some (d, r) => Some (b :: d, r) | None => None end
  | S _, _ => None
  end.
(** prepare_next_recv, a read, parse_msg (unpacker.h:21-45) *)
Definition more_raw (r : raw) (d : list byte) : raw := mk_raw (r_f r) (r_o r) (r_left r - zlen d) (r_got r ++ d).
Definition fits (r : raw) (n : nat) : bool := (0 <? Z.of_nat n) && (Z.of_nat n <=? Z.min XFER (r_left r)).

Inductive fact : Type :=
| CGet (f : nat) | CTrunc (f : nat) | CPut (f : nat) | CTalk      (* the user *)
| CTake (n : nat)                                                (* the client receives: a message, or n bytes of a file *)
| CSent                                                          (* the client's on_msg_send *)
| STake (n : nat) | SSent | SClear                               (* the server *)
| CForeign (x : item order).                                     (* a client of somebody else sends an order, or a byte outside any *)

Definition fstep (c : fcfg) (s : fst) (a : fact) : option (fst * list fev) :=
  if f_dead s then None else
  let k := f_c s in let v := f_v s in
  match a with
  | CGet f => match c_st k with IDLE => Some (ask (set_c s (mk_c PREPARE (JGet f) None None)) (O0 f), [EGet f]) | _ => None end          (* file_client.h:38-64 *)
  | CTrunc f => match c_st k with IDLE => if idx c =? 0 then Some (ask (set_c s (mk_c PREPARE (JTrunc f) None None)) (O10 f), [EPut f]) else None | _ => None end   (* 66-84 *)
  | CPut f => match c_st k with IDLE => if idx c =? 0 then None else let '(s1, t) := put_file c s f in Some (s1, EPut f :: t) | _ => None end
  | CTalk => match c_st k with IDLE => Some (ask s O2, []) | _ => None end                          (* 128-136 *)
  | CTake n =>
      match c_raw k, f_sc s with
      | None, IM m :: l => if Nat.eqb n 0 then Some (c_msg c (set_sc s l) m) else None
      | None, IB _ :: _ => Some (die s, [EGarbled])
      | Some _, IM _ :: _ => Some (die s, [EGarbled])
      | Some r, IB _ :: _ =>
          if r_left r <=? 0 then Some (die s, [EOverflow])
          else if fits r n then
            match bytes_at n (f_sc s) with
            | Some (d, l) =>
                let r1 := more_raw r d in
                if r_left r1 =? 0 then Some (set_c (set_sc s l) c_idle, [EGot (r_f r1) (r_o r1) (r_got r1)])
                else Some (set_c (set_sc s l) (mk_c (c_st k) (c_job k) (Some r1) (c_up k)), [])
            | None => None
            end
          else None
      | _, [] => None
      end
  | CSent =>
      match c_up k, c_job k with
      | Some b, JPut f _ _ => Some (c_block (set_c s (mk_c (c_st k) (c_job k) (c_raw k) None)) f (b_file b) (b_pos b) (b_total b))
      | _, _ => None
      end
  | STake n =>
      match v_raw v, f_cs s with
      | None, IM m :: l => if Nat.eqb n 0 then Some (v_msg c (set_cs s l) m) else None
      | None, IB _ :: _ => Some (die s, [EGarbled])
      | Some _, IM _ :: _ => Some (die s, [EGarbled])
      | Some r, IB _ :: _ =>
          if r_left r <=? 0 then Some (die s, [EOverflow])
          else if fits r n then
            match bytes_at n (f_cs s) with
            | Some (d, l) =>
                let r1 := more_raw r d in
                if r_left r1 =? 0 then Some (set_v (set_cs s l) (v_end v true), [EStored (r_f r1) (r_o r1) (r_got r1)])
                else Some (set_v (set_cs s l) (mk_v (v_st v) (v_file v) (v_next v) (Some r1) (v_send v) (v_q v)), [])
            | None => None
            end
          else None
      | _, [] => None
      end
  | SSent => match v_send v with Some (SOut x) => Some (v_sent s x) | _ => None end
  | SClear => match v_send v with Some SEnd => Some (v_clear s, []) | _ => None end
  | CForeign x => Some (set_cs s (f_cs s ++ [x]), [])
  end.
Fixpoint frun (c : fcfg) (s : fst) (l : list fact) : option (fst * list fev) :=
  match l with
  | [] => Some (s, [])
  | a :: l' =>
      match fstep c s a with
      | Some (s1, t1) => match frun c s1 l' with Some (s2, t2) => Some (s2, t1 ++ t2) | None => None end
      | None => None
      end
  end.
Definition f0 : fst := mk_f c_idle (mk_v IDLE None 0 None None []) [] [] false.
