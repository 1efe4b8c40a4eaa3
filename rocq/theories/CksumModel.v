(** Model of the two checksum routines: rtpp_in_cksum (src/rtpp_network.c:265-306) and the rtpp_ip_chksum_* macros
    (src/rtpp_ip_chksum.h:27-70), on a little-endian host (BYTE_ORDER other than BIG_ENDIAN). A byte is a Z in [0,256). *)
From Verif Require Import Base.

(** *(u_short * )cp on a little-endian host *)
Definition ld16 (a b : Z) : Z := a + 256 * b.
(** The bytes of a uint16_t in memory *)
Definition st16 (x : Z) : list Z := [x mod 256; x / 256].
(** The bytes of a uint16_t that went through htons() *)
Definition be16 (x : Z) : list Z := [x / 256 mod 256; x mod 256].

(** [int] arithmetic: [None] is a signed overflow *)
Definition add_int (s x : Z) : option Z := if s + x <? 2147483648 then Some (s + x) else None.

(** rtpp_network.c:278-281 (even address) and 283-291 (odd address, bytes are fetched one by one), then 293-302: the odd
    last byte. The outer loop runs at most once: the inner ones leave len = -2 or -1. *)
Fixpoint in_loop (odd_addr : bool) (l : list Z) (sum : Z) : option Z :=
  match l with
  | a :: b :: t =>
      if odd_addr then
        match add_int sum a with
        | Some s => match add_int s (b * 256) with Some s' => in_loop odd_addr t s' | None => None end
        | None => None
        end
      else match add_int sum (ld16 a b) with Some s => in_loop odd_addr t s | None => None end
  | [a] => add_int sum a
  | [] => Some sum
  end.
(** rtpp_network.c:303-305 *)
Definition in_fin (sum : Z) : Z :=
  let s1 := sum / 65536 + sum mod 65536 in
  let s2 := s1 + s1 / 65536 in (- s2 - 1) mod 65536.
Definition in_cksum (odd_addr : bool) (l : list Z) : option Z :=
  match in_loop odd_addr l 0 with Some s => Some (in_fin s) | None => None end.

(** rtpp_ip_chksum_update / _update_data: uint32_t accumulation; _update only sees even lengths *)
Fixpoint ck_update (l : list Z) (w : Z) : Z :=
  match l with
  | a :: b :: t => ck_update t (u32 (w + ld16 a b))
  | [a] => u32 (w + ld16 a 0)
  | [] => w
  end.
(** rtpp_ip_chksum_fin: the result is cut to the uint16_t field it is stored in *)
Definition ck_fin (w : Z) : Z :=
  let w1 := u32 (w / 65536 + w mod 65536) in
  let w2 := u32 (w1 + w1 / 65536) in u16 (- w2 - 1).
