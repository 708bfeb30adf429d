(** ext::basic_buffer, include/ext/ext.h:71-273.

    [bmem] is the allocated block ([None]: NULL) whose list length is the size passed to realloc. New memory
    has unspecified content (function [g]); an allocation may fail ([ok] = false), then std::bad_alloc is
    thrown. [W] is the number of values of size_t, [msvc] whether _MSC_VER is defined. *)
From Coq Require Import List NArith Bool.
From Verif Require Import M_Bytes M_Flex.
Import ListNotations.
Open Scope N_scope.

(** include/ext/ext.h:270-272 *)
Record bbuf : Type := mk_bbuf { bmem : option (list byte); bsize : N; bcap : N }.

(** the function returned, threw an exception (leaving the object so), or did something undefined *)
Inductive bout : Type := Done (b : bbuf) | Throw (b : bbuf) | Wrong (e : bad).
Definition bthen (r : bout) (f : bbuf -> bout) : bout := match r with Done b => f b | _ => r end.

(** what an operation gets from its environment *)
Record benv : Type := mk_benv { size_t_range : N; msvc : bool; alloc_ok : bool; fresh : nat -> byte }.

(** max_size, include/ext/ext.h:250: UINT_MAX *)
Definition UMAX : N := 4294967295.
(** do_detach, include/ext/ext.h:266 *)
Definition detached : bbuf := mk_bbuf None 0 0.
(** size, include/ext/ext.h:257 *)
Definition bb_size (b : bbuf) : N := match bmem b with None => 0 | Some _ => bsize b end.

(** cap + cap / 2 or 2 * cap in unsigned arithmetic, include/ext/ext.h:218-225 *)
Definition grown (e : benv) (cap : N) : N := (if msvc e then cap + cap / 2 else 2 * cap) mod (UMAX + 1).

(** realloc: the old content is kept as far as it fits *)
Definition realloc (e : benv) (m : option (list byte)) (n : N) : list byte :=
  let old := match m with None => [] | Some l => l end in
  takeN n old ++ garbage (fresh e) (n - lenN (takeN n old)).

(** reserve, include/ext/ext.h:206-248 *)
Definition bb_reserve (e : benv) (b : bbuf) (request : N) : bout :=
  if UMAX <? request then Throw b
  else
    let capacity := if request <? bsize b then bsize b else if request =? 0 then 16 else request in
    if capacity =? bcap b then Done b
    else
      let capacity := if (bcap b <? capacity) && (capacity <? grown e (bcap b)) then N.min (grown e (bcap b)) UMAX else capacity in
      let new_cap := N.land capacity 4294967280 in
      let new_cap :=
        if new_cap <? capacity
        then let n := (new_cap + 16) mod size_t_range e in if (n <? capacity) || (UMAX <? n) then UMAX else n
        else new_cap in
      if new_cap =? bcap b then Done b
      else if negb (alloc_ok e) then Throw b
      else Done (mk_bbuf (Some (realloc e (bmem b) new_cap)) (bsize b) (new_cap mod (UMAX + 1))).

(** resize, include/ext/ext.h:194-200 *)
Definition bb_resize (e : benv) (b : bbuf) (n : N) : bout :=
  bthen (if bcap b <? n then bb_reserve e b n else Done b) (fun b => Done (mk_bbuf (bmem b) (n mod (UMAX + 1)) (bcap b))).

(** check_length, include/ext/ext.h:268 *)
Definition too_long (b : bbuf) (n : N) : bool := (UMAX <? n) || (UMAX - n <? bsize b).

(** memcpy / memset to buff + len; through NULL it is undefined *)
Definition bb_put (b : bbuf) (bytes : list byte) : bout :=
  match bmem b with
  | None => Wrong OutOfBounds
  | Some m => match blit m (bsize b) bytes with
              | Ok m' => Done (mk_bbuf (Some m') ((bsize b + lenN bytes) mod (UMAX + 1)) (bcap b))
              | Bad x => Wrong x
              end
  end.

(** append(count, c), include/ext/ext.h:107-121 *)
Definition bb_fill (e : benv) (b : bbuf) (count : N) (c : byte) : bout :=
  if count =? 0 then Done b
  else if too_long b count then Throw b
  else
    let capacity := (bsize b + count) mod size_t_range e in
    bthen (if bcap b <? capacity then bb_reserve e b capacity else Done b) (fun b => bb_put b (repeat c (N.to_nat count))).

(** append(_buff, _len), include/ext/ext.h:126-141; [p]: the memory _buff points to, [None]: NULL *)
Definition bb_append (e : benv) (b : bbuf) (p : option (list byte)) (n : N) : bout :=
  match p with
  | None => Done b
  | Some src =>
    if n =? 0 then Done b
    else if too_long b n then Throw b
    else
      let capacity := (bsize b + n) mod size_t_range e in
      bthen (if bcap b <? capacity then bb_reserve e b capacity else Done b) (fun b =>
      match fetch src 0 n with Ok bytes => bb_put b bytes | Bad x => Wrong x end)
  end.

(** append(other) with other = *this, include/ext/ext.h:123: _buff is the own block before reserve;
    after a reallocation the block is gone *)
Definition bb_append_self (e : benv) (b : bbuf) : bout :=
  match bmem b with
  | None => Done b
  | Some src =>
    let n := bb_size b in
    if n =? 0 then Done b
    else if too_long b n then Throw b
    else
      let capacity := (bsize b + n) mod size_t_range e in
      if bcap b <? capacity then
        bthen (bb_reserve e b capacity) (fun b' =>
        if bcap b' =? bcap b then match fetch src 0 n with Ok bytes => bb_put b' bytes | Bad x => Wrong x end
        else Wrong UseAfterFree)
      else match fetch src 0 n with Ok bytes => bb_put b bytes | Bad x => Wrong x end
  end.

(** a C string: its characters and the terminating 0 (strlen stops there); the text has no 0 inside *)
Definition c_str (text : list byte) : list byte := text ++ [x00].

(** append2(_buff, _len), include/ext/ext.h:164-170 *)
Definition bb_append2 (e : benv) (b : bbuf) (p : option (list byte)) (n : N) : bout :=
  if 0 <? bsize b then
    match bmem b with
    | None => Wrong OutOfBounds
    | Some m => match fetch m (bsize b - 1) 1 with
                | Ok [last] => bthen (if byte_eqb last x00 then bb_resize e b (bsize b - 1) else Done b) (fun b => bb_append e b p n)
                | Ok _ => Wrong OutOfBounds
                | Bad x => Wrong x
                end
    end
  else bb_append e b p n.
(** append2(buff), include/ext/ext.h:163 *)
Definition bb_append2_str (e : benv) (b : bbuf) (text : list byte) : bout :=
  bb_append e b (Some (c_str text)) (lenN text + 1).

(** erase(pos, len), include/ext/ext.h:172-192 *)
Definition bb_erase (e : benv) (b : bbuf) (pos n : N) : bout :=
  if bb_size b <? pos then Throw b
  else if bb_size b <=? n then bb_resize e b pos
  else
    let start := bb_size b - n in
    if start <=? pos then bb_resize e b pos
    else match bmem b with
         | None => Wrong OutOfBounds
         | Some m =>
           match fetch m (pos + n) (bb_size b - pos - n) with
           | Ok tail => match blit m pos tail with
                        | Ok m' => bb_resize e (mk_bbuf (Some m') (bsize b) (bcap b)) (bb_size b - n)
                        | Bad x => Wrong x
                        end
           | Bad x => Wrong x
           end
         end.

(** assign(buff, len), include/ext/ext.h:203 *)
Definition bb_assign (e : benv) (b : bbuf) (p : option (list byte)) (n : N) : bout :=
  bthen (bb_resize e b 0) (fun b => bb_append e b p n).

(** append(other) / operator+=(other), include/ext/ext.h:104, 123, for another object *)
Definition bb_append_other (e : benv) (b other : bbuf) : bout := bb_append e b (bmem other) (bb_size other).

(** The public operations on an object x, with a second object y *)
Inductive bop : Type :=
| OAppend (p : option (list byte)) (n : N)      (* append(buff, len) *)
| OAppendStr (text : list byte)                 (* append(buff) *)
| OFill (count : N) (c : byte)                  (* append(count, c), append(c) *)
| OAppend2 (p : option (list byte)) (n : N)     (* append2(buff, len) *)
| OErase (pos n : N)
| OResize (n : N)                               (* resize, assign(len), clear *)
| OAssign (p : option (list byte)) (n : N)      (* assign(buff, len), operator=(buff) *)
| OReserve (n : N)                              (* reserve, shrink_to_fit *)
| OClean                                        (* clean, destructor followed by the default constructor *)
| OAppendOther                                  (* x.append(y), x += y *)
| OAssignOther                                  (* x = y *)
| OCopy                                         (* x destroyed and constructed as basic_buffer(y) *)
| OCopyFrom (pos : N)                           (* ... as basic_buffer(y, pos) *)
| OSwap.                                        (* x.swap(y) *)

(** one operation; the pair is (x, y) *)
Inductive bpair : Type := PDone (x y : bbuf) | PThrow (x y : bbuf) | PWrong (e : bad).
Definition lift_out (r : bout) (y : bbuf) : bpair :=
  match r with Done x => PDone x y | Throw x => PThrow x y | Wrong e => PWrong e end.

Definition bb_step (e : benv) (x y : bbuf) (o : bop) : bpair :=
  match o with
  | OAppend p n => lift_out (bb_append e x p n) y
  | OAppendStr text => lift_out (bb_append e x (Some (c_str text)) (lenN text)) y
  | OFill n c => lift_out (bb_fill e x n c) y
  | OAppend2 p n => lift_out (bb_append2 e x p n) y
  | OErase pos n => lift_out (bb_erase e x pos n) y
  | OResize n => lift_out (bb_resize e x n) y
  | OAssign p n => lift_out (bb_assign e x p n) y
  | OReserve n => lift_out (bb_reserve e x n) y
  | OClean => PDone detached y
  | OAppendOther => lift_out (bb_append_other e x y) y
  | OAssignOther => lift_out (bthen (bb_resize e x 0) (fun x => bb_append_other e x y)) y
  | OCopy => lift_out (bb_append_other e detached y) y
  | OCopyFrom pos =>
      if pos <? bb_size y then
        match bmem y with
        | None => PWrong OutOfBounds
        | Some m => lift_out (bb_append e detached (Some (dropN pos m)) (bb_size y - pos)) y
        end
      else PDone detached y
  | OSwap => PDone y x
  end.

(** x = x, include/ext/ext.h:97 *)
Definition bb_assign_self (e : benv) (b : bbuf) : bout := bthen (bb_resize e b 0) (fun b => bb_append_self e b).

(** basic_buffer(other, pos, len), include/ext/ext.h:87-92: boost::next(other.size(), pos) is the number
    other.size() + pos, so that append(count, c) is called with the length converted to char *)
Definition bb_sub3 (e : benv) (y : bbuf) (pos n : N) : bout :=
  if pos <? bb_size y then
    bb_fill e detached ((bb_size y + pos) mod size_t_range e)
      (byte_of_N (if bb_size y <? (pos + n) mod size_t_range e then bb_size y - pos else n))
  else Done detached.
