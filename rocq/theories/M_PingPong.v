(** The ping-pong test: pingpong_client/pingpong_client.cpp:37-107, 176-196 and pingpong_server/pingpong_server.cpp:35-45, both ends of every link.

    A byte is represented by the number of the test in which it was first sent; the bytes on their way on a link are in one of four places: the
    client's send buffer, the network to the server, the server's send buffer, the network to the client (the stream unpacker keeps nothing back,
    C09). ST_ASIO_WANT_MSG_SEND_NOTIFY is not defined, as in the program.
    Simplifications: links stay up; echo_socket::begin is one step (on a link with nothing on its way no handle_msg can run meanwhile; otherwise
    the code even has a data race); uint64_t does not overflow (at most 2^31 messages of at most 2^16 bytes); the clock is left out. *)
From Coq Require Import List NArith Arith Bool.
Import ListNotations.

(** limit of a send buffer (ST_ASIO_MAX_SEND_BUF), size of the receive buffer (ST_ASIO_MSG_BUFFER_SIZE), number of links *)
Record pcfg : Type := mk_pc { p_limit : nat; p_bufsz : nat; p_links : nat }.
(** [k_total], [k_recv]: total_bytes and recv_bytes, pingpong_client.cpp:106 *)
Record plink : Type := mk_k { k_out : list nat; k_up : list nat; k_srv : list nat; k_down : list nat; k_total : nat; k_recv : nat }.
(** [q_done]: completed_session_num (unsigned short), lines 31-35; [q_todo]: the links on which begin has not been called yet; [q_run]: the main
    thread waits for the end of a test; [q_test]: number of the test; [q_num], [q_len]: its parameters *)
Record pst : Type := mk_q { q_links : list plink; q_done : N; q_todo : list nat; q_run : bool; q_test : nat; q_num : nat; q_len : nat }.
Inductive pact : Type :=
| TStart (num len : nat)      (* the main thread starts a test *)
| TBegin                      (* ... and calls begin on the next link *)
| TEnd                        (* ... and sees that all sessions are completed *)
| CWrite (i n : nat) | SRead (i n : nat) | SWrite (i n : nat) | CRead (i n : nat).   (* n bytes go on to the next place *)
Inductive pev : Type := EStart (num len : nat) | EBack (i : nat) (bytes : list nat) | EDone (i : nat) | EFinished | EDrop (i : nat) (bytes : list nat) | ERefused (i : nat).

Fixpoint set_at {A} (i : nat) (x : A) (l : list A) : list A := match l, i with [], _ => [] | _ :: r, O => x :: r | a :: r, S i' => a :: set_at i' x r end.
Definition with_link (s : pst) (i : nat) (k : plink) : pst := mk_q (set_at i k (q_links s)) (q_done s) (q_todo s) (q_run s) (q_test s) (q_num s) (q_len s).

(** handle_msg, pingpong_client.cpp:87-102; the second result: this session was completed *)
Definition handle (k : plink) (rest got : list nat) : plink * bool :=
  if k_total k =? 0 then (mk_k (k_out k) (k_up k) (k_srv k) rest (k_total k) (k_recv k), false)
  else
    let recv := k_recv k + length got in
    if k_total k <=? recv then (mk_k (k_out k) (k_up k) (k_srv k) rest 0 recv, true)
    else (mk_k (k_out k ++ got) (k_up k) (k_srv k) rest (k_total k) recv, false).

Definition pstep (c : pcfg) (s : pst) (a : pact) : option (pst * list pev) :=
  match a with
  | TStart num len =>    (* pingpong_client.cpp:174-192: msg_num and msg_len are at least 1, msg_len at most the buffer's size *)
      if negb (q_run s) && (1 <=? num) && (1 <=? len) && (len <=? p_bufsz c) then
        Some (mk_q (q_links s) (N.of_nat (p_links c) mod 65536) (seq 0 (p_links c)) true (S (q_test s)) num len, [EStart num len])
      else None
  | TBegin =>            (* begin, 42-49: send_native_msg without can_overflow *)
      match q_todo s with
      | [] => None
      | i :: r =>
          match nth_error (q_links s) i with
          | None => None
          | Some k =>
              let room := length (k_out k) <? p_limit c in
              let k1 := mk_k (if room then k_out k ++ repeat (q_test s) (q_len s) else k_out k) (k_up k) (k_srv k) (k_down k) (q_len s * q_num s) 0 in
              Some (mk_q (set_at i k1 (q_links s)) (q_done s) r (q_run s) (q_test s) (q_num s) (q_len s), if room then [] else [ERefused i])
          end
      end
  | TEnd =>              (* 195 *)
      if q_run s && (q_done s =? 0)%N && match q_todo s with [] => true | _ => false end then
        Some (mk_q (q_links s) (q_done s) [] false (q_test s) (q_num s) (q_len s), [EFinished])
      else None
  | CWrite i n =>
      match nth_error (q_links s) i with
      | Some k =>
          if (1 <=? n) && (n <=? length (k_out k))
          then Some (with_link s i (mk_k (skipn n (k_out k)) (k_up k ++ firstn n (k_out k)) (k_srv k) (k_down k) (k_total k) (k_recv k)), [])
          else None
      | None => None
      end
  | SRead i n =>         (* on_msg of the server, pingpong_server.cpp:35-45: direct_send_msg without can_overflow *)
      match nth_error (q_links s) i with
      | Some k =>
          if (1 <=? n) && (n <=? length (k_up k)) && (n <=? p_bufsz c) then
            if length (k_srv k) <? p_limit c
            then Some (with_link s i (mk_k (k_out k) (skipn n (k_up k)) (k_srv k ++ firstn n (k_up k)) (k_down k) (k_total k) (k_recv k)), [])
            else Some (with_link s i (mk_k (k_out k) (skipn n (k_up k)) (k_srv k) (k_down k) (k_total k) (k_recv k)), [EDrop i (firstn n (k_up k))])
          else None
      | None => None
      end
  | SWrite i n =>
      match nth_error (q_links s) i with
      | Some k =>
          if (1 <=? n) && (n <=? length (k_srv k))
          then Some (with_link s i (mk_k (k_out k) (k_up k) (skipn n (k_srv k)) (k_down k ++ firstn n (k_srv k)) (k_total k) (k_recv k)), [])
          else None
      | None => None
      end
  | CRead i n =>         (* on_msg of the client, pingpong_client.cpp:57-67 *)
      match nth_error (q_links s) i with
      | Some k =>
          if (1 <=? n) && (n <=? length (k_down k)) && (n <=? p_bufsz c) then
            let got := firstn n (k_down k) in
            let '(k1, over) := handle k (skipn n (k_down k)) got in
            let s1 := with_link s i k1 in
            if over then Some (mk_q (q_links s1) ((q_done s1 + 65535) mod 65536) (q_todo s1) (q_run s1) (q_test s1) (q_num s1) (q_len s1), [EBack i got; EDone i])
            else Some (s1, [EBack i got])
          else None
      | None => None
      end
  end.
Fixpoint prun (c : pcfg) (s : pst) (l : list pact) : option (pst * list pev) :=
  match l with
  | [] => Some (s, [])
  | a :: l' =>
    match pstep c s a with
    | None => None
    | Some (s1, e1) => match prun c s1 l' with None => None | Some (s2, e2) => Some (s2, e1 ++ e2) end
    end
  end.
Definition idle_link : plink := mk_k [] [] [] [] 0 0.
Definition p0 (c : pcfg) : pst := mk_q (repeat idle_link (p_links c)) 0 [] false 0 0 0.
