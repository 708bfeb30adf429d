(** Buffers on the heap: unique_buffer and shared_buffer (include/base.h:154-196), and the packer and unpackers that use them: packer2
    (include/ext/packer.h:152-242), unpacker2 and udp_unpacker2 (include/ext/unpacker.h:393-463).

    A heap of objects and the buffers (object_buffer) that exist: variables of the application, items of containers. A destroyed buffer is an
    empty one here. Simplifications: one thread; memory allocation succeeds; the content of an object is its bytes, whatever T is; the real
    packer and unpacker (template parameters) are those of M_Packer and M_Unpacker. *)
From Coq Require Import List NArith Arith Bool.
From Verif Require Import M_Bytes M_Config M_Packer.
Import ListNotations.
Open Scope nat_scope.

(** boost::scoped_ptr or boost::shared_ptr *)
Inductive kind : Type := Unique | Shared.
(** an object: its bytes, the use count (shared_ptr only), whether it is still allocated *)
Record cell : Type := mk_cell { c_bytes : list byte; c_refs : nat; c_live : bool }.
(** [o_slots]: the buffers, each empty or with an object *)
Record ob : Type := mk_ob { o_heap : list cell; o_slots : list (option nat) }.
Inductive ev : Type := ENew (o : nat) | EFree (o : nat).

(** the outcome: done; undefined behaviour (freeing or using what is not allocated); not a C++ program (no such buffer, copying of a
    unique_buffer, writing through an empty buffer) *)
Inductive out (A : Type) : Type := Done (a : A) (e : list ev) | Undef | NoCpp.
Arguments Done {A}. Arguments Undef {A}. Arguments NoCpp {A}.
Definition bindo {A B} (x : out A) (f : A -> out B) : out B :=
  match x with
  | Done a e => match f a with Done b e' => Done b (e ++ e') | Undef => Undef | NoCpp => NoCpp end
  | Undef => Undef
  | NoCpp => NoCpp
  end.

Fixpoint set_nth {A} (k : nat) (x : A) (l : list A) : list A :=
  match l, k with [], _ => [] | _ :: r, O => x :: r | a :: r, S k' => a :: set_nth k' x r end.

(** the end of one smart pointer to o: delete, or the use count drops *)
Definition release (k : kind) (h : list cell) (o : nat) : out (list cell) :=
  match nth_error h o with
  | None => Undef
  | Some c =>
    if negb (c_live c) then Undef
    else match k with
         | Unique => Done (set_nth o (mk_cell (c_bytes c) 0 false) h) [EFree o]
         | Shared => if c_refs c =? 1 then Done (set_nth o (mk_cell (c_bytes c) 0 false) h) [EFree o]
                     else Done (set_nth o (mk_cell (c_bytes c) (c_refs c - 1) true) h) []
         end
  end.
Definition release_opt (k : kind) (h : list cell) (x : option nat) : out (list cell) := match x with None => Done h [] | Some o => release k h o end.
(** one more shared_ptr to the object of another one *)
Definition share (h : list cell) (x : option nat) : out (list cell) :=
  match x with
  | None => Done h []
  | Some o => match nth_error h o with
              | Some c => if c_live c then Done (set_nth o (mk_cell (c_bytes c) (c_refs c + 1) true) h) [] else Undef
              | None => Undef
              end
  end.
(** new T, owned by a smart pointer *)
Definition alloc (h : list cell) (b : list byte) : list cell * nat := (h ++ [mk_cell b 1 true], length h).

(** what a buffer holds: size(), data(), empty() (include/base.h:173-175); None: no object *)
Definition view (s : ob) (i : nat) : option (list byte) :=
  match nth_error (o_slots s) i with
  | Some (Some o) => match nth_error (o_heap s) o with Some c => Some (c_bytes c) | None => None end
  | _ => None
  end.
Definition bytes_of (s : ob) (i : nat) : list byte := match view s i with Some b => b | None => [] end.

Inductive op : Type :=
| ONew (b : list byte)             (* object_buffer(T* ), include/base.h:165: a new buffer with a new object *)
| ODefault                         (* object_buffer(), include/base.h:164 *)
| OCopy (i : nat)                  (* the copy constructor of shared_buffer *)
| OSwap (i j : nat)                (* swap, include/base.h:176 *)
| OClear (i : nat)                 (* clear, include/base.h:177, and the destructor *)
| OReset (i : nat) (b : list byte) (* raw_buffer(T* ) with a new object, include/base.h:168 *)
| OAssign (i j : nat)              (* raw_buffer(buffer_ctype&), include/base.h:169, and the assignment of shared_buffer *)
| OTake (i j : nat)                (* raw_buffer(buffer_type&), include/base.h:170: clear, then swap *)
| OWrite (i : nat) (b : list byte) (* the application changes the object through raw_buffer() or raw_data() *)
.

Definition clear (k : kind) (s : ob) (i : nat) : out ob :=
  match nth_error (o_slots s) i with
  | None => NoCpp
  | Some x => bindo (release_opt k (o_heap s) x) (fun h => Done (mk_ob h (set_nth i None (o_slots s))) [])
  end.
Definition swap (s : ob) (i j : nat) : out ob :=
  match nth_error (o_slots s) i, nth_error (o_slots s) j with
  | Some x, Some y => Done (mk_ob (o_heap s) (set_nth j x (set_nth i y (o_slots s)))) []
  | _, _ => NoCpp
  end.
Definition exec (k : kind) (s : ob) (a : op) : out ob :=
  match a with
  | ONew b => let '(h, o) := alloc (o_heap s) b in Done (mk_ob h (o_slots s ++ [Some o])) [ENew o]
  | ODefault => Done (mk_ob (o_heap s) (o_slots s ++ [None])) []
  | OCopy i =>
    match k, nth_error (o_slots s) i with
    | Shared, Some x => bindo (share (o_heap s) x) (fun h => Done (mk_ob h (o_slots s ++ [x])) [])
    | _, _ => NoCpp
    end
  | OSwap i j => swap s i j
  | OClear i => clear k s i
  | OReset i b =>
    match nth_error (o_slots s) i with
    | None => NoCpp
    | Some x => let '(h, o) := alloc (o_heap s) b in
                bindo (Done h [ENew o]) (fun h => bindo (release_opt k h x) (fun h => Done (mk_ob h (set_nth i (Some o) (o_slots s))) []))
    end
  | OAssign i j =>
    match k, nth_error (o_slots s) i, nth_error (o_slots s) j with
    | Shared, Some x, Some y => bindo (share (o_heap s) y) (fun h => bindo (release_opt k h x) (fun h => Done (mk_ob h (set_nth i y (o_slots s))) []))
    | _, _, _ => NoCpp
    end
  | OTake i j => bindo (clear k s i) (fun s => swap s i j)
  | OWrite i b =>
    match nth_error (o_slots s) i with
    | Some (Some o) => match nth_error (o_heap s) o with
                       | Some c => if c_live c then Done (mk_ob (set_nth o (mk_cell b (c_refs c) true) (o_heap s)) (o_slots s)) [] else Undef
                       | None => Undef
                       end
    | _ => NoCpp
    end
  end.
Fixpoint run (k : kind) (s : ob) (l : list op) : out ob :=
  match l with [] => Done s [] | a :: l' => bindo (exec k s a) (fun s => run k s l') end.
Definition empty_ob : ob := mk_ob [] [].

(** packer2::pack_msg(msg, pstr, len, num, native), include/ext/packer.h:166-179, and pack_heartbeat, 223-236: what the real packer made, given
    its result, is put into a new object of buffer i *)
Definition wrap_packed (k : kind) (s : ob) (i : nat) (packed : bool * list byte) : out (bool * ob) :=
  if fst packed then bindo (exec k s (OReset i (snd packed))) (fun s => Done (true, s) []) else Done (false, s) [].
Definition pack2_array (c : cfg) (k : kind) (s : ob) (i : nat) (bufs : option (list buf)) (native : bool) : res (out (bool * ob)) :=
  bind (pack_array c bufs native) (fun p => Ok (wrap_packed k s i p)).
Definition pack2_heartbeat (c : cfg) (ndebug : bool) (k : kind) (s : ob) (i : nat) : res (out (bool * ob)) :=
  bind (pack_heartbeat c ndebug) (fun h => Ok (wrap_packed k s i (true, h))).

(** the items a packer put into the container: the new buffers, the last ones of the state *)
Definition items_of (s s' : ob) : list (list byte) := map (bytes_of s') (seq (length (o_slots s)) (length (o_slots s') - length (o_slots s))).

(** emplace_back().swap(msg) for each message *)
Fixpoint move_in (k : kind) (s : ob) (is : list nat) : out ob :=
  match is with
  | [] => Done s []
  | i :: r => bindo (exec k s ODefault) (fun s1 => bindo (exec k s1 (OSwap i (length (o_slots s)))) (fun s2 => move_in k s2 r))
  end.
(** pack_msg(msg, msg_can), pack_msg(msg1, msg2, msg_can) and pack_msg(in, out), include/ext/packer.h:180-222. The messages are buffers [is];
    splice is modelled as moving one by one. *)
Definition pack2_list (c : cfg) (ndebug : bool) (k : kind) (s : ob) (len : N) (is : list nat) : res (out (bool * ob)) :=
  if (max_body c <? len)%N then Ok (Done (false, s) [])
  else bind (pack_header c ndebug len) (fun h => Ok (bindo (exec k s (ONew h)) (fun s => bindo (move_in k s is) (fun s => Done (true, s) [])))).
Definition pack2_one (c : cfg) (ndebug : bool) (k : kind) (s : ob) (i : nat) : res (out (bool * ob)) :=
  pack2_list c ndebug k s (lenN (bytes_of s i)) [i].
Definition pack2_two (c : cfg) (ndebug : bool) (k : kind) (s : ob) (i j : nat) : res (out (bool * ob)) :=
  pack2_list c ndebug k s ((lenN (bytes_of s i) + lenN (bytes_of s j)) mod size_range c)%N [i; j].
Definition pack2_many (c : cfg) (ndebug : bool) (k : kind) (s : ob) (is : list nat) : res (out (bool * ob)) :=
  pack2_list c ndebug k s (size_in_byte c (map (bytes_of s) is)) is.

(** unpacker2::parse_msg, include/ext/unpacker.h:404-417: every message of the real unpacker gets an object of its own; whether unpacking failed
    or not. udp_unpacker2::parse_msg and compose_msg (441-449) for one message. *)
Fixpoint wrap_unpacked (k : kind) (s : ob) (msgs : list (list byte)) : out ob :=
  match msgs with [] => Done s [] | m :: r => bindo (exec k s (ONew m)) (fun s => wrap_unpacked k s r) end.
