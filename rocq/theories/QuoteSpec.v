(** URL quoting on byte strings (C25). *)
From Verif Require Import Base.

(** Value of a hexadecimal digit (either case). *)
Definition hexval (c : Z) : option Z :=
  if (48 <=? c) && (c <=? 57) then Some (c - 48)
  else if (65 <=? c) && (c <=? 70) then Some (c - 65 + 10)
  else if (97 <=? c) && (c <=? 102) then Some (c - 97 + 10)
  else None.

(** The decoded string; [None] when a percent sign is not followed by two hexadecimal digits. *)
Fixpoint decoded (s : list Z) : option (list Z) :=
  match s with
  | [] => Some []
  | 37 :: t0 =>
      match t0 with
      | a :: b :: t =>
          match hexval a, hexval b, decoded t with
          | Some x, Some y, Some r => Some (16 * x + y :: r)
          | _, _, _ => None
          end
      | _ => None
      end
  | c :: t => match decoded t with Some r => Some ((if c =? 43 then 32 else c) :: r) | None => None end
  end.

(** The quoted string: letters, digits and - _ . ~ stand for themselves, everything else becomes
    %XX in upper case. *)
Definition plain (c : Z) : Prop :=
  65 <= c <= 90 \/ 97 <= c <= 122 \/ 48 <= c <= 57 \/ c = 45 \/ c = 95 \/ c = 46 \/ c = 126.
Definition upper_hex (v : Z) : Z := nth (Z.to_nat v) [48;49;50;51;52;53;54;55;56;57;65;66;67;68;69;70] 0.
Inductive quoted : list Z -> list Z -> Prop :=
| quoted_nil : quoted [] []
| quoted_plain c s q : plain c -> quoted s q -> quoted (c :: s) (c :: q)
| quoted_hex c s q : ~ plain c -> quoted s q -> quoted (c :: s) (37 :: upper_hex (c / 16) :: upper_hex (c mod 16) :: q).

Definition bytes (s : list Z) : Prop := Forall (fun c => 0 <= c < 256) s.
(** [len] bytes of [mem] from offset [off]. *)
Definition area (mem : list Z) (off len : nat) : list Z := firstn len (skipn off mem).
