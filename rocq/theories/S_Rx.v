(** What a TCP receiver of the length-prefixed protocol has to do, stated over the bytes that arrive
    and the messages and errors the application sees. [s0] is the unpacker before the first read. *)
From Coq Require Import List NArith Bool.
From Verif Require Import M_Bytes M_Config M_Rx S_Frame.
Import ListNotations.
Open Scope N_scope.

(** Whatever the pieces [ds] in which a valid stream arrives: after the bytes received so far the
    application has exactly the messages whose frames are complete, in order, and no error. *)
Definition receives_frames {S} (c : cfg) (u : unpk S) (s0 : S) : Prop :=
  forall awf bodies ds rest st o,
    forallb (fits c) bodies = true ->
    concat ds ++ rest = wire c bodies ->
    run awf u (start_read u s0) ds = Some (st, o) ->
    all_msgs o = expected c bodies (lenN (concat ds)) /\ any_err o = false.

(** Whatever bytes arrive (also nonsense): the receiver never trips an assertion, never touches memory
    outside of its buffers, never ends silently; it always waits for at least one more byte and takes
    every block that fits its buffer. *)
Definition never_stops {S} (u : unpk S) (s0 : S) : Prop :=
  forall awf ds st o,
    run awf u (start_read u s0) ds = Some (st, o) ->
    exists s sp t lim, st = Reading s sp t lim /\ 0 < lim /\ t + lim <= sp /\
      forall d, 0 < lenN d -> lenN d <= lim -> exists st' o', feed awf u st d = Some (st', o').

(** A header with an impossible length behind valid frames: every message in front of it is delivered,
    and the error is reported with the block that completes this header, not earlier and not later. *)
Definition rejects_bad_header {S} (c : cfg) (u : unpk S) (s0 : S) : Prop :=
  forall awf bodies junk rest ds d st1 o1 st o,
    forallb (fits c) bodies = true ->
    head_len c <= lenN junk ->
    (let n := be_decode (takeN (head_len c) junk) in n < head_len c \/ bufsz c < n) ->
    concat ds ++ d ++ rest = wire c bodies ++ junk ->
    lenN (concat ds) < lenN (wire c bodies) + head_len c <= lenN (concat ds) + lenN d ->
    run awf u (start_read u s0) ds = Some (st1, o1) ->
    run awf u (start_read u s0) (ds ++ [d]) = Some (st, o) ->
    all_msgs o1 = expected c bodies (lenN (concat ds)) /\ any_err o1 = false /\
    all_msgs o = shown c bodies /\ any_err o = true.

(** The link breaks after any bytes (also in the middle of a frame): no message is made up from the
    incomplete rest, and after reset() the unpacker serves the next link as if it were new. *)
Definition clean_after_break {S} (c : cfg) (u : unpk S) (s0 : S) : Prop :=
  forall awf ds st o,
    run awf u (start_read u s0) ds = Some (st, o) ->
    exists s, read_error u st = Ok (Some s, []) /\ receives_frames c u (u_reset u s) /\
              rejects_bad_header c u (u_reset u s) /\ never_stops u (u_reset u s).
