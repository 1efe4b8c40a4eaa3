(** Base64 as RFC 4648 has it, and the form of the option. *)
From Verif Require Import Base Str EcryModel.

(** the character for a value below 64 *)
Definition b64char (v : Z) : Z :=
  if v <? 26 then 65 + v else if v <? 52 then 97 + (v - 26) else if v <? 62 then 48 + (v - 52) else if v =? 62 then 43 else 47.

(** each three bytes are four characters: the number of 24 bits in base 64, most significant first *)
Fixpoint b64 (l : list Z) : list Z :=
  match l with
  | x :: y :: z :: l =>
      let n := x * 2 ^ 16 + y * 2 ^ 8 + z in
      b64char (n / 2 ^ 18) :: b64char (n / 2 ^ 12 mod 64) :: b64char (n / 2 ^ 6 mod 64) :: b64char (n mod 64) :: b64 l
  | _ => []
  end.

Definition byte (b : Z) : Prop := 0 <= b < 256.

(** equal but for the case of the letters A to Z *)
Definition same_letter (a b : Z) : Prop := a = b \/ (65 <= a <= 90 /\ b = a + 32) \/ (65 <= b <= 90 /\ a = b + 32).
Definition same_name (a b : list Z) : Prop := Forall2 same_letter a b.

(** the two suites and their tags *)
Definition known (name : list Z) (tag : Z) : Prop :=
  (same_name name (B "AES_CM_128_HMAC_SHA1_32") /\ tag = 4) \/ (same_name name (B "AES_CM_128_HMAC_SHA1_80") /\ tag = 10).

(** one stream decrypted: each packet after those before it; what does not decrypt, or to nothing, is left out *)
Fixpoint plain (unprotect : list cpkt -> cpkt -> option (list Z)) (before l : list cpkt) : list cpkt :=
  match l with
  | [] => []
  | p :: l =>
      match unprotect before p with Some d => match d with [] => [] | _ => [CPkt (cp_ssrc p) d] end | None => [] end ++
      plain unprotect (before ++ [p]) l
  end.
