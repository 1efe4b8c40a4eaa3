(** Model of src/rtpp_genuid.c *)
From Verif Require Import Base.

(** struct rtpp_genuid_priv, src/rtpp_genuid.c:40-43, as a shared atomic, and per thread the
    list of ids its calls have returned, newest first. *)
Record guid := mkGuid { lastuid : Z; returned : nat -> list Z }.

(** rtpp_genuid_ctor, src/rtpp_genuid.c:51-70 *)
Definition guid_ctor : guid := mkGuid 0 (fun _ => []).

(** rtpp_genuid_gen by thread [t], src/rtpp_genuid.c:72-81: one atomic fetch-and-add on a
    uint64_t, which returns the value before the addition. *)
Definition guid_gen (g : guid) (t : nat) : guid :=
  mkGuid (u64 (lastuid g + 1))
         (fun t' => if Nat.eqb t' t then lastuid g :: returned g t' else returned g t').

(** A schedule is the order in which threads get to perform their atomic operation. *)
Definition guid_run (sched : list nat) : guid := fold_left guid_gen sched guid_ctor.
