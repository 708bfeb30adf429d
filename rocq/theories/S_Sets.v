(** Specification: the settings of a socket take effect. *)
From Coq Require Import List Bool Arith.
From Verif Require Import M_Bytes M_Reuse S_Reuse.
Import ListNotations.
Open Scope nat_scope.

(** what an observer knows about a socket *)
Record zmon : Type := mk_zm {
  z_sbuf : nat; z_rbuf : nat; z_intv : nat; z_pack : nat;   (* the settings in force: the last ones made on this socket, else the defaults *)
  z_pend : list (nat * list byte);   (* messages that send_msg took and that were not written, with the packer in force at that time *)
  z_rest : list byte;                (* bytes that arrived and are not a whole message yet *)
  z_got : list (list byte);          (* messages that arrived and were not offered to the application *)
  z_again : bool;                    (* the application refused a message and will be asked again *)
  z_may : bool;                      (* the socket may read *)
  z_right : Prop                     (* everything seen so far was right *)
}.
Definition z_init (c : ucfg) : zmon := mk_zm (u_sbuf c) (u_rbuf c) (u_intv c) 0 [] [] [] false false True.
Definition size (l : list (list byte)) : nat := length (concat l).
(** bytes may be read as long as less than the limit waits for the application *)
Definition z_look (m : zmon) : zmon :=
  mk_zm (z_sbuf m) (z_rbuf m) (z_intv m) (z_pack m) (z_pend m) (z_rest m) (z_got m) (z_again m) (z_may m || (size (z_got m) <? z_rbuf m)) (z_right m).
Definition z_sets (m : zmon) (sb rb iv p : nat) : zmon := mk_zm sb rb iv p (z_pend m) (z_rest m) (z_got m) (z_again m) (z_may m) (z_right m).
Definition z_set (m : zmon) (x : setting) : zmon :=
  match x with
  | SSend n => if 0 <? n then z_sets m n (z_rbuf m) (z_intv m) (z_pack m) else m      (* a limit of 0 is refused *)
  | SRecv n => if 0 <? n then z_sets m (z_sbuf m) n (z_intv m) (z_pack m) else m
  | SIntv n => z_sets m (z_sbuf m) (z_rbuf m) n (z_pack m)
  | SPack p => z_sets m (z_sbuf m) (z_rbuf m) (z_intv m) p
  | _ => m
  end.
Definition z_move (m : zmon) (pend : list (nat * list byte)) (rest : list byte) (got : list (list byte)) (again may : bool) (right : Prop) : zmon :=
  mk_zm (z_sbuf m) (z_rbuf m) (z_intv m) (z_pack m) pend rest got again may (z_right m /\ right).
Definition z_event (m : zmon) (e : uev) : zmon :=
  let go := z_move m in
  match e with
  | ESet _ x => z_set m x
  (* send_msg takes a message exactly if less than the limit waits for being written *)
  | EQueued _ q => go (z_pend m ++ [(z_pack m, q)]) (z_rest m) (z_got m) (z_again m) (z_may m) (size (map snd (z_pend m)) < z_sbuf m)
  | ERefused _ q => go (z_pend m) (z_rest m) (z_got m) (z_again m) (z_may m) (z_sbuf m <= size (map snd (z_pend m)))
  (* what is written was packed by the packer in force when send_msg was called *)
  | EWrite _ l => go (skipn (length l) (z_pend m)) (z_rest m) (z_got m) (z_again m) (z_may m) (firstn (length l) (z_pend m) = l)
  | EUp _ => go (z_pend m) (z_rest m) (z_got m) (z_again m) true True
  | EDown _ => go (z_pend m) [] (z_got m) (z_again m) false True
  | EIn _ d => let '(ms, r) := cut (z_rest m) d in go (z_pend m) r (z_got m ++ ms) (z_again m) false (z_may m = true)
  | EHandle _ _ ok => go (z_pend m) (z_rest m) (if z_again m then z_got m else tl (z_got m)) (negb ok) (z_may m) True
  | EWait _ n => go (z_pend m) (z_rest m) (z_got m) (z_again m) (z_may m) (n = z_intv m)
  | _ => m
  end.
Definition zstep (i : nat) (m : zmon) (e : uev) : zmon := if ev_id e =? i then z_look (z_event m e) else m.
Definition zmon_of (c : ucfg) (i : nat) (tr : list uev) : zmon := fold_left (zstep i) tr (z_init c).
(** the settings of socket i took effect *)
Definition as_set (c : ucfg) (i : nat) (tr : list uev) : Prop := z_right (zmon_of c i tr).
