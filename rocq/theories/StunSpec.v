(** What a reader of the STUN documents expects of messages read and written. *)
From Verif Require Import Base StunModel.

Definition bytes (l : list Z) : Prop := Forall (fun x => 0 <= x < 256) l.

(** Bytes [p] to [p + n] of a datagram. *)
Definition part (b : list Z) (p n : Z) : list Z := firstn (Z.to_nat n) (skipn (Z.to_nat p) b).
(** The number in network byte order of [n] bytes at [p]. *)
Definition num (b : list Z) (p n : Z) : Z := be (part b p n).

(** Values an attribute of the given type can have (RFC 5389, 5245, 5766, 5780). *)
Definition address (s : sa) : Prop :=
  match s with
  | In4 a p => 0 <= a < 2 ^ 32 /\ 0 <= p < 65536
  | In6 a p => length a = 16%nat /\ bytes a /\ 0 <= p < 65536
  end.
Definition text (s : list Z) : Prop := bytes s /\ ~ In 0 s /\ zlen s < 65000.
Definition well_formed (a : attr) : Prop :=
  match a_val a with
  | VSa s => In (a_type a) [0x1; 0x8023; 0x802b; 0x802c; 0x12; 0x16; 0x20] /\ address s
  | VChange _ _ => a_type a = 0x3
  | VStr s => In (a_type a) [0x6; 0x14; 0x15; 0x8022] /\ text s
  | VMi h => a_type a = 0x8 /\ length h = 20%nat /\ bytes h
  | VErr c s => a_type a = 0x9 /\ 0 <= c < 800 /\ text s
  | VUnk l => a_type a = 0xa /\ (length l <= 8)%nat /\ Forall (fun t => 0 <= t < 65536) l
  | VU16 n => In (a_type a) [0xc; 0x27] /\ 0 <= n < 65536
  | VU32 n => In (a_type a) [0xd; 0x24; 0x8028] /\ 0 <= n < 2 ^ 32
  | VData d => In (a_type a) [0x13; 0x26] /\ bytes d /\ zlen d < 65000
  | VU8 n => In (a_type a) [0x17; 0x19] /\ 0 <= n < 256
  | VEven _ => a_type a = 0x18
  | VFlag => In (a_type a) [0x1a; 0x25]
  | VU64 n => In (a_type a) [0x22; 0x8029; 0x802a] /\ 0 <= n < 2 ^ 64
  | VOther => False
  end.
(** A list of attributes that says nothing of integrity or fingerprint. *)
Definition plain (l : list attr) : Prop :=
  Forall (fun a => well_formed a /\ a_type a <> 0x8 /\ a_type a <> 0x8028) l.

(** Attributes standing one after the other in the bytes from [p] to [e]: each begins with its type,
    and takes at least the 4 bytes of its type and length. *)
Inductive one_after_another (b : list Z) : Z -> list attr -> Z -> Prop :=
| oaa_nil p : one_after_another b p [] p
| oaa_cons p q e a l : num b p 2 = a_type a -> p + 4 <= q -> one_after_another b q l e ->
                       one_after_another b p (a :: l) e.

(** The walk over type, length, value and padding of RFC 5389, section 15: types met from [p] to [e]. *)
Fixpoint tlv_types (fuel : nat) (b : list Z) (p e : Z) : list Z :=
  match fuel with
  | O => []
  | S f => if p + 4 <=? e then num b p 2 :: tlv_types f b (p + 4 + (num b (p + 2) 2 + 3) / 4 * 4) e else []
  end.

(** The attribute at [p] of a datagram, as the documents draw it: type, length, value. Some addresses
    are masked with the 16 bytes at 4, the cookie and the transaction. *)
Definition masked (t : Z) : bool := existsb (Z.eqb t) [0x12; 0x16; 0x20].
Definition drawn (b : list Z) (p : Z) (a : attr) : Prop :=
  let len := num b (p + 2) 2 in
  let at_ n k := num b (p + 4 + n) k in
  let mask x y := if masked (a_type a) then Z.lxor x y else x in
  num b p 2 = a_type a /\
  match a_val a with
  | VSa (In4 h q) => len = 8 /\ at_ 0 2 = 1 /\ at_ 2 2 = mask q 0x2112 /\ at_ 4 4 = mask h 0x2112a442
  | VSa (In6 h q) => len = 20 /\ at_ 0 2 = 2 /\ at_ 2 2 = mask q 0x2112 /\
                     forall i, 0 <= i < 16 -> at_ (4 + i) 1 = mask (nth (Z.to_nat i) h 0) (num b (4 + i) 1)
  | VChange ip port => len = 4 /\ at_ 0 4 = (if ip then 4 else 0) + (if port then 2 else 0)
  | VStr s | VData s | VMi s => len = zlen s /\ part b (p + 4) len = s
  | VErr c s => len = 4 + zlen s /\ at_ 0 2 = 0 /\ at_ 2 1 = c / 100 /\ at_ 3 1 = c mod 100 /\ part b (p + 8) (zlen s) = s
  | VUnk l => len = 2 * zlen l /\ forall i, 0 <= i < zlen l -> at_ (2 * i) 2 = nth (Z.to_nat i) l 0
  | VU16 n => len = 4 /\ at_ 0 2 = n
  | VU32 n => len = 4 /\ at_ 0 4 = n
  | VU8 n => len = 4 /\ at_ 0 1 = n
  | VEven r => len = 1 /\ at_ 0 1 = (if r then 128 else 0)
  | VFlag => len = 0
  | VU64 n => len = 8 /\ at_ 0 8 = n
  | VOther => False
  end.
(** All of [l], each after the one before and filled up to 4 bytes, from [p] to [e]. *)
Inductive all_drawn (b : list Z) : Z -> list attr -> Z -> Prop :=
| drawn_nil p : all_drawn b p [] p
| drawn_cons p e a l : drawn b p a -> all_drawn b (p + 4 + (num b (p + 2) 2 + 3) / 4 * 4) l e -> all_drawn b p (a :: l) e.

(** What the MESSAGE-INTEGRITY value of a message with a fingerprint stands for: the message up to
    that attribute, with the length there would be without the fingerprint. *)
Definition covered (b : list Z) : list Z :=
  part b 0 2 ++ be16 (num b 2 2 - 8) ++ part b 4 (16 + num b 2 2 - 32).

Section digests.
  Context (mac : list Z -> list Z -> list Z) (crc : list Z -> Z).
  (** The datagram [b] was read as [m] and passed both checks. *)
  Definition accepted (key b : list Z) (m : msg) : Prop :=
    decode b = Ok m /\ chk_fp crc b m = Ok tt /\ fst (chk_mi mac key b m) = Ok tt.
End digests.
