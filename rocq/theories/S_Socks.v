(** What RFC 1928, RFC 1929 and the SOCKS4 note say about the bytes on the wire; independent of the model. *)
From Coq Require Import List NArith Bool.
From Coq Require Import Init.Byte Strings.Byte.
Import ListNotations.
Open Scope N_scope.

Inductive dest : Type := DV4 (b : list byte) | DV6 (b : list byte) | DName (n : list byte).
(** two bytes, network order *)
Definition port_of (l : list byte) : option N := match l with [a; b] => Some (Byte.to_N a * 256 + Byte.to_N b) | _ => None end.
Definition with_port (d : dest) (l : list byte) : option (dest * N) := match port_of l with Some p => Some (d, p) | None => None end.
Definition dec_addr (l : list byte) : option (dest * N) :=
  match l with
  | x01 :: r => if Nat.eqb (length (firstn 4 r)) 4 then with_port (DV4 (firstn 4 r)) (skipn 4 r) else None
  | x04 :: r => if Nat.eqb (length (firstn 16 r)) 16 then with_port (DV6 (firstn 16 r)) (skipn 16 r) else None
  | x03 :: k :: r => let n := N.to_nat (Byte.to_N k) in
                     if Nat.eqb (length (firstn n r)) n && negb (Nat.eqb n 0) then with_port (DName (firstn n r)) (skipn n r) else None
  | _ => None
  end.
(** RFC 1928 section 4: CONNECT request *)
Definition dec_request (l : list byte) : option (dest * N) := match l with x05 :: x01 :: x00 :: r => dec_addr r | _ => None end.
(** RFC 1928 section 3: the methods offered *)
Definition dec_methods (l : list byte) : option (list byte) :=
  match l with x05 :: k :: r => if N.of_nat (length r) =? Byte.to_N k then Some r else None | _ => None end.
(** RFC 1929: user name and password, each of 1 to 255 bytes *)
Definition dec_auth (l : list byte) : option (list byte * list byte) :=
  match l with
  | x01 :: k :: r =>
      let n := N.to_nat (Byte.to_N k) in
      match skipn n r with
      | k2 :: r2 => if Nat.eqb (length r2) (N.to_nat (Byte.to_N k2)) && negb (Nat.eqb n 0) && negb (Nat.eqb (length r2) 0) && Nat.eqb (length (firstn n r)) n
                    then Some (firstn n r, r2) else None
      | [] => None
      end
  | _ => None
  end.
(** SOCKS4 CONNECT: address, port, user id (zero-terminated) *)
Fixpoint until_zero (l : list byte) : option (list byte) :=
  match l with [] => None | [x00] => Some [] | x00 :: _ => None | b :: r => match until_zero r with Some u => Some (b :: u) | None => None end end.
Definition dec_socks4 (l : list byte) : option (list byte * N * list byte) :=
  match l with
  | x04 :: x01 :: p1 :: p2 :: a :: b :: c :: d :: r => match until_zero r with Some u => Some ([a; b; c; d], Byte.to_N p1 * 256 + Byte.to_N p2, u) | None => None end
  | _ => None
  end.

(** what a proxy may answer: no authentication or authentication, and the reply to the request *)
Inductive talk : Type :=
| TNoAuth (reply : list byte)               (* selects method 0, then replies *)
| TAuth (reply : list byte)                 (* selects method 2, accepts the credentials, then replies *)
| TAuthRefused (status : byte)              (* selects method 2 and refuses the credentials *)
| TNoMethod (m : byte).                     (* selects no acceptable method *)
(** a reply: version, code, reserved, address, port *)
Definition rep_of (reply : list byte) : option byte := match reply with x05 :: c :: x00 :: r => match dec_addr r with Some _ => Some c | None => None end | _ => None end.
Definition wf_talk (t : talk) : Prop :=
  match t with
  | TNoAuth r | TAuth r => rep_of r <> None
  | TAuthRefused s => s <> x00
  | TNoMethod m => m <> x00 /\ m <> x02
  end.
(** the proxy established the connection *)
Definition granted (t : talk) : bool := match t with TNoAuth r | TAuth r => match rep_of r with Some x00 => true | _ => false end | _ => false end.
(** the separate answers, each sent after the client's request *)
Definition answers (t : talk) : list (list byte) :=
  match t with
  | TNoAuth r => [[x05; x00]; r]
  | TAuth r => [[x05; x02]; [x01; x00]; r]
  | TAuthRefused s => [[x05; x02]; [x01; s]]
  | TNoMethod m => [[x05; m]]
  end.
(** [l] delivered in non-empty pieces *)
Definition pieces (l : list byte) (cs : list (list byte)) : Prop := concat cs = l /\ Forall (fun c => c <> []) cs.
(** several answers, none of which shares a piece with another *)
Inductive in_pieces : list (list byte) -> list (list byte) -> Prop :=
| ip_nil : in_pieces [] []
| ip_cons a l cs ds : pieces a cs -> in_pieces l ds -> in_pieces (a :: l) (cs ++ ds).
