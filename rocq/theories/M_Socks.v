(** SOCKS4 and SOCKS5 client handshakes, include/tcp/proxy/socks.h.

    Simplifications: built with NDEBUG (otherwise the assertion at include/tcp/client_socket.h:39 ends the
    program for every target that is a domain name); the textual form of IP addresses is boost's ([parse]: make_address);
    the setters are not called during a handshake. *)
From Coq Require Import List NArith ZArith Bool.
From Verif Require Import M_Bytes.
Import ListNotations.
Open Scope N_scope.

(** boost::asio::ip::address *)
Inductive addr : Type := V4 (b : list byte) | V6 (b : list byte).
Notation text := (list byte) (only parsing).
(** value of a char (signed) *)
Definition schar (b : byte) : Z := let n := Z.of_N (Byte.to_N b) in if (n <? 128)%Z then n else (n - 256)%Z.

(** ** SOCKS5: the client's settings, socks.h:369-375 *)
Record s5 : Type := mk_s5 { on : bool;   (* step <> -1 *)
                            target_addr : addr; target_addr_port : N; target_domain : text; target_port : N;
                            username : text; password : text }.
(** sizeof(buff), socks.h:368 *)
Definition BUFF : N := 64.

(** set_target_addr, socks.h:124-145 with set_addr, client_socket.h:31-53 *)
Definition set_target (parse : text -> option addr) (c : s5) (port : N) (ip : text) : bool * s5 :=
  let off := mk_s5 false (target_addr c) (target_addr_port c) (target_domain c) (target_port c) (username c) (password c) in
  if (port =? 0) || (lenN ip =? 0) then (false, off)
  else match parse ip with
       | None => if BUFF - 7 <? lenN ip then (false, off)
                 else (true, mk_s5 true (target_addr c) (target_addr_port c) ip port (username c) (password c))
       | Some a => (true, mk_s5 true a port (target_domain c) (target_port c) (username c) (password c))
       end.
(** set_auth, socks.h:148-159 *)
Definition set_auth (c : s5) (usr pwd : text) : bool * s5 :=
  if (lenN usr =? 0) || (lenN pwd =? 0) || (60 <? lenN usr + lenN pwd) then (false, c)
  else (true, mk_s5 (on c) (target_addr c) (target_addr_port c) (target_domain c) (target_port c) usr pwd).
(** the constructor, socks.h:118-119 *)
Definition s5_init : s5 := mk_s5 false (V4 [x00; x00; x00; x00]) 0 [] 0 [] [].

(** ** requests; each returns buff and req_len *)
(** send_method, socks.h:173-193 *)
Definition send_method (c : s5) (b : list byte) : res (list byte * N) :=
  bind (blit b 0 [x05]) (fun b =>
  if (lenN (username c) =? 0) && (lenN (password c) =? 0)
  then bind (blit b 1 [x01]) (fun b => bind (blit b 2 [x00]) (fun b => Ok (b, 3)))
  else bind (blit b 1 [x02]) (fun b => bind (blit b 3 [x02]) (fun b => bind (blit b 2 [x00]) (fun b => Ok (b, 4))))).
(** send_auth, socks.h:195-208 *)
Definition send_auth (c : s5) (b : list byte) : res (list byte * N) :=
  let ul := lenN (username c) in
  let pl := lenN (password c) in
  bind (blit b 0 [x01]) (fun b => bind (blit b 1 [byte_of_N ul]) (fun b => bind (blit b 2 (username c)) (fun b =>
  bind (blit b (2 + ul) [byte_of_N pl]) (fun b => bind (blit b (3 + ul) (password c)) (fun b =>
  Ok (b, 1 + 1 + ul + 1 + pl)))))).
(** send_request, socks.h:210-250 *)
Definition send_request (c : s5) (b : list byte) : res (list byte * N) :=
  bind (blit b 0 [x05]) (fun b => bind (blit b 1 [x01]) (fun b => bind (blit b 2 [x00]) (fun b =>
  if negb (lenN (target_domain c) =? 0)
  then
    let k := schar (byte_of_N (N.min (lenN (target_domain c)) (BUFF - 7))) in
    if (k <? 0)%Z then Bad OutOfBounds else
    let k := Z.to_N k in
    bind (blit b 3 [x03]) (fun b => bind (blit b 4 [byte_of_N k]) (fun b =>
    bind (fetch (target_domain c) 0 k) (fun d => bind (blit b 5 d) (fun b =>
    bind (blit b (5 + k) (be_encode 2 (target_port c))) (fun b => Ok (b, 7 + k))))))
  else match target_addr c with
       | V4 a => bind (blit b 3 [x01]) (fun b => bind (blit b 4 a) (fun b => bind (blit b 8 (be_encode 2 (target_addr_port c))) (fun b => Ok (b, 10))))
       | V6 a => bind (blit b 3 [x04]) (fun b => bind (blit b 4 a) (fun b => bind (blit b 20 (be_encode 2 (target_addr_port c))) (fun b => Ok (b, 22))))
       end))).
(** async_write(buffer(buff, req_len)): the bytes sent *)
Definition written (r : res (list byte * N)) : res (list byte) := bind r (fun '(b, n) => fetch b 0 n).

(** ** the handshake *)
(** waiting for an answer: step (1 method, 2 authentication, 3 request), buff, res_len *)
Record hs : Type := mk_hs { hstep : N; hbuf : list byte; hres : N }.
Inductive verdict : Type := Again | SendAuth | SkipAuth | SendReq | Granted | Refused.
(** recv_handler, socks.h:277-352; [n] is res_len including the bytes just read *)
Definition at_ (b : list byte) (i : nat) : byte := nth i b x00.
Definition SIZE_RANGE : Z := 18446744073709551616.
Definition judge (step : N) (b : list byte) (n : N) : verdict :=
  match step with
  | 1 => if n <? 2 then Again else if 2 <? n then Refused
         else if Byte.eqb (at_ b 1) x00 then SkipAuth else if Byte.eqb (at_ b 1) x02 then SendAuth else Refused
  | 2 => if n <? 2 then Again else if 2 <? n then Refused
         else if Byte.eqb (at_ b 1) x00 then SendReq else Refused
  | 3 => if n <? 6 then Again
         else if Byte.eqb (at_ b 1) x00 then
           let len := if Byte.eqb (at_ b 3) x01 then 6 + 4
                      else if Byte.eqb (at_ b 3) x03 then Z.to_N ((6 + 1 + schar (at_ b 4)) mod SIZE_RANGE)
                      else if Byte.eqb (at_ b 3) x04 then 6 + 16 else 6 in
           if n <? len then Again else if len <? n then Refused else Granted
         else Refused
  | _ => Refused
  end.

Inductive result : Type := Open (s : hs) | Connected | Closed.
(** connect_handler, socks.h:162-171, and send_handler, 252-265, for a successful write: the first request *)
Definition hs_start (c : s5) (b : list byte) : res (list byte * hs) :=
  bind (send_method c b) (fun '(b, n) => bind (fetch b 0 n) (fun q => Ok (q, mk_hs 1 b 0))).
Definition next_request (r : res (list byte * N)) (step : N) : res (list (list byte) * result) :=
  bind r (fun '(b, n) => bind (fetch b 0 n) (fun q => Ok ([q], Open (mk_hs step b 0)))).
(** recv_handler, socks.h:267-365, after async_read_some delivered [l] (or an error), with the write that follows
    ([wok]: it succeeds): what is sent then, and the new state. [None]: impossible, async_read_some reads between 1
    byte and the room that is left. *)
Definition hs_recv (c : s5) (s : hs) (l : option (list byte)) (wok : bool) : option (res (list (list byte) * result)) :=
  match l with
  | None => Some (Ok ([], Closed))
  | Some l =>
      if (lenN l =? 0) || (BUFF - hres s <? lenN l) then None
      else Some (bind (blit (hbuf s) (hres s) l) (fun b =>
        let n := hres s + lenN l in
        let send r step := bind (next_request r step) (fun '(q, t) => Ok (q, if wok then t else Closed)) in
        match judge (hstep s) b n with
        | SendAuth => send (send_auth c b) (hstep s + 1)
        | SkipAuth => send (send_request c b) (hstep s + 2)
        | SendReq => send (send_request c b) (hstep s + 1)
        | Granted => Ok ([], Connected)                                   (* super::connect_handler, 357 *)
        | Refused => Ok ([], Closed)                                      (* force_shutdown, 355 *)
        | Again => if BUFF <=? n then Ok ([], Closed) else Ok ([], Open (mk_hs (hstep s) b n))   (* 358-364 *)
        end))
  end.
(** the whole handshake after the first request: what is sent, how it ends and the events not consumed *)
Definition event : Type := (option (list byte) * bool)%type.
Fixpoint hs_run (c : s5) (s : hs) (evs : list event) : option (res (list (list byte) * result * list event)) :=
  match evs with
  | [] => Some (Ok ([], Open s, []))
  | (l, wok) :: evs' =>
      match hs_recv c s l wok with
      | None => None
      | Some (Bad e) => Some (Bad e)
      | Some (Ok (q, Open s')) =>
          match hs_run c s' evs' with
          | Some (Ok (q', r, rest)) => Some (Ok (q ++ q', r, rest))
          | x => x
          end
      | Some (Ok (q, r)) => Some (Ok (q, r, evs'))
      end
  end.

(** ** SOCKS4, socks.h:37-96; buff has 16 bytes *)
(** set_target_addr, socks.h:37-56: the request, none if refused *)
Definition socks4_request (parse : text -> option addr) (b : list byte) (port : N) (ip : text) : option (res (list byte * N)) :=
  if (port =? 0) || (lenN ip =? 0) then None
  else match parse ip with
       | Some (V4 a) =>
           Some (bind (blit b 0 [x04]) (fun b => bind (blit b 1 [x01]) (fun b => bind (blit b 2 (be_encode 2 port)) (fun b =>
                 bind (blit b 4 a) (fun b => bind (blit b 8 [x73; x74; x5f; x61; x73; x69; x6f; x00]) (fun b => Ok (b, 16)))))))
       | _ => None
       end.
(** async_read of exactly 8 bytes, socks.h:78, and recv_handler, 82-96: the verdict and the bytes left in the socket; [None]: still waiting *)
Definition socks4_answer (stream : list byte) : option (bool * list byte) :=
  if lenN stream <? 8 then None else Some (Byte.eqb (at_ stream 1) x5a, dropN 8 stream).
