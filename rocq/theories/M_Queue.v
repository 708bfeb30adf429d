(** Message queues: template class queue, include/container.h:60-257, over boost::container::list.
    Locking makes each operation atomic (or the application guarantees it). [W]: number of values of size_t.
    Constructing a list node is assumed to succeed (otherwise enqueue returns false and changes nothing). *)
From Coq Require Import List NArith Bool.
From Verif Require Import M_Bytes.
Import ListNotations.
Open Scope N_scope.

(** include/container.h:60 (Container), 256 (total_size) *)
Record mqueue : Type := mk_q { qitems : list (list byte); qtotal : N }.
Definition q_new : mqueue := mk_q [] 0.

(** get_size_in_byte, include/base.h:646-656 *)
Definition bytes_of (W : N) (l : list (list byte)) : N := fold_left (fun acc i => (acc + lenN i) mod W) l 0.

(** enqueue_, include/container.h:106-137, and enqueue_front_, 150-181 *)
Definition q_enqueue (W : N) (q : mqueue) (m : list byte) : mqueue := mk_q (qitems q ++ [m]) ((qtotal q + lenN m) mod W).
Definition q_enqueue_front (W : N) (q : mqueue) (m : list byte) : mqueue := mk_q (m :: qitems q) ((qtotal q + lenN m) mod W).

(** move_items_in_, include/container.h:139-148, and move_items_in_front_, 183-192; [sz] = 0: to be computed *)
Definition q_move_in (W : N) (q : mqueue) (src : list (list byte)) (sz : N) : res mqueue :=
  if (sz =? 0) || (bytes_of W src =? sz)
  then Ok (mk_q (qitems q ++ src) ((qtotal q + bytes_of W src) mod W)) else Bad AssertFail.
Definition q_move_in_front (W : N) (q : mqueue) (src : list (list byte)) (sz : N) : res mqueue :=
  if (sz =? 0) || (bytes_of W src =? sz)
  then Ok (mk_q (src ++ qitems q) ((qtotal q + bytes_of W src) mod W)) else Bad AssertFail.

(** subtraction in size_t *)
Definition subW (W a b : N) : N := (a + (W - b mod W)) mod W.

(** try_dequeue_, include/container.h:194 *)
Definition q_pop (W : N) (q : mqueue) : option (list byte) * mqueue :=
  match qitems q with [] => (None, q) | m :: ms => (Some m, mk_q ms (subW W (qtotal q) (lenN m))) end.

(** the loop of move_items_out_(dest, max_item_num), include/container.h:205-208:
    the items passed and their size, the rest *)
Fixpoint take_num (W : N) (size index maxn : N) (l : list (list byte)) : list (list byte) * N * list (list byte) :=
  match l with
  | [] => ([], size, [])
  | m :: ms =>
    if index <? maxn then
      let '(a, s, b) := take_num W ((size + lenN m) mod W) (index + 1) maxn ms in (m :: a, s, b)
    else ([], size, l)
  end.
(** move_items_out_(dest, max_item_num), include/container.h:196-212; result: what dest gets, the queue *)
Definition q_out_num (W : N) (q : mqueue) (maxn : N) : list (list byte) * mqueue :=
  if maxn =? W - 1 then (qitems q, mk_q [] 0)
  else if 0 <? maxn then
    let '(a, s, b) := take_num W 0 0 maxn (qitems q) in (a, mk_q b (subW W (qtotal q) s))
  else ([], q).

(** the loop of move_items_out_(max_size_in_byte, dest), include/container.h:220-227 *)
Fixpoint take_bytes (W : N) (size maxb : N) (l : list (list byte)) : list (list byte) * N * list (list byte) :=
  match l with
  | [] => ([], size, [])
  | m :: ms =>
    let size' := (size + lenN m) mod W in
    if maxb <=? size' then ([m], size', ms)
    else let '(a, s, b) := take_bytes W size' maxb ms in (m :: a, s, b)
  end.
(** move_items_out_(max_size_in_byte, dest), include/container.h:214-231 *)
Definition q_out_bytes (W : N) (q : mqueue) (maxb : N) : list (list byte) * mqueue :=
  if maxb =? W - 1 then (qitems q, mk_q [] 0)
  else let '(a, s, b) := take_bytes W 0 maxb (qitems q) in (a, mk_q b (subW W (qtotal q) s)).

(** swap, include/container.h:83-90; result: what the argument holds afterwards *)
Definition q_swap (W : N) (q : mqueue) (can : list (list byte)) : list (list byte) * mqueue :=
  (qitems q, mk_q can (bytes_of W can)).

Inductive qop : Type :=
| QEnqueue (m : list byte) | QEnqueueFront (m : list byte)
| QMoveIn (src : list (list byte)) (sz : N) | QMoveInFront (src : list (list byte)) (sz : N)
| QPop | QOutNum (n : N) | QOutBytes (n : N) | QSwap (can : list (list byte)) | QClear.

(** one operation: the items handed to the caller and the queue *)
Definition q_step (W : N) (q : mqueue) (o : qop) : res (list (list byte) * mqueue) :=
  match o with
  | QEnqueue m => Ok ([], q_enqueue W q m)
  | QEnqueueFront m => Ok ([], q_enqueue_front W q m)
  | QMoveIn src sz => bind (q_move_in W q src sz) (fun q => Ok ([], q))
  | QMoveInFront src sz => bind (q_move_in_front W q src sz) (fun q => Ok ([], q))
  | QPop => match q_pop W q with (None, q) => Ok ([], q) | (Some m, q) => Ok ([m], q) end
  | QOutNum n => Ok (q_out_num W q n)
  | QOutBytes n => Ok (q_out_bytes W q n)
  | QSwap can => Ok (q_swap W q can)
  | QClear => Ok ([], mk_q [] 0)                       (* include/container.h:82 *)
  end.

Fixpoint q_run (W : N) (q : mqueue) (os : list qop) : res (list (list (list byte)) * mqueue) :=
  match os with
  | [] => Ok ([], q)
  | o :: os' => bind (q_step W q o) (fun '(out, q1) => bind (q_run W q1 os') (fun '(outs, q2) => Ok (out :: outs, q2)))
  end.
