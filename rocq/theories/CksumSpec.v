(** The Internet checksum (RFC 1071), as a receiver tests it: the data, read as 16 bit numbers in network byte order and
    filled up with a zero byte when their count is odd, add up with end-around carry to all ones. *)
From Verif Require Import Base.

Definition bytes (l : list Z) : Prop := Forall (fun b => 0 <= b < 256) l.
Definition oc_add (x y : Z) : Z := let s := x + y in if s <? 65536 then s else s - 65535.
Fixpoint oc_sum (l : list Z) : Z :=
  match l with
  | a :: b :: t => oc_add (256 * a + b) (oc_sum t)
  | [a] => 256 * a
  | [] => 0
  end.
Definition verifies (l : list Z) : Prop := oc_sum l = 65535.

(** What UDP sums (RFC 768, RFC 8200): the pseudo header, then the datagram. *)
Definition pseudo4 (src dst : list Z) (ulen : Z) : list Z := src ++ dst ++ [0; 17; ulen / 256 mod 256; ulen mod 256].
Definition pseudo6 (src dst : list Z) (ulen : Z) : list Z :=
  src ++ dst ++ [ulen / 16777216 mod 256; ulen / 65536 mod 256; ulen / 256 mod 256; ulen mod 256; 0; 0; 0; 17].
