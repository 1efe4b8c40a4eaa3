(** C10: growable string buffer. *)
From Verif Require Import Base SbufModel SbufSpec SbufProof.

(** For every non-empty initial block, every address and every history of writes (any text, any
    libc formatting failure), resets and extensions (moving, in place, or failing): no store
    leaves the block and no assertion fails; every call returns what the abstract buffer returns
    (in particular a write that does not fit reports SBW_SHRT and changes nothing); the bytes in
    use are the concatenation of the successful writes since the last reset, and unless the last
    write was a libc formatting failure the block holds it as a NUL terminated string. *)
Theorem sbuf_refines_string :
  forall (raw : list Z) (addr : Z) (os : list sb_op), raw <> [] -> sb_valid (length raw) os ->
  exists b0 b, sbuf_ctor raw addr = SbRet b0 /\
    sbuf_run b0 os = SbRet (b, snd (sb_spec ([], length raw) os)) /\
    let '(content, cap) := fst (sb_spec ([], length raw) os) in
    length (sb_mem b) = cap /\ (length content < cap)%nat /\
    rs_ulen b = Z.of_nat (length content) /\ firstn (length content) (sb_mem b) = content /\
    (sb_clean true os = true -> cstr (sb_mem b) = Some content).
Proof. exact sbuf_main. Qed.
Print Assumptions sbuf_refines_string.

(** Without the obligation that the initial size is positive the constructor itself stores out of
    bounds. *)
Theorem sbuf_zero_size_refuted : exists addr, sbuf_ctor [] addr = SbOOB.
Proof. exists 4096. reflexivity. Qed.
Print Assumptions sbuf_zero_size_refuted.

Example sbuf_refines_string_ex :
  let os := [SWrite (FmtOk [97; 98]); SWrite (FmtOk [99; 100]); SExtend 6 (Some (70, fun _ => 7));
             SWrite (FmtOk [99; 100]); SWrite (FmtErr [1; 2; 3]); SWrite (FmtOk [101])] in
  sb_valid 4 os /\ sb_clean true os = true /\
  match sbuf_ctor [9; 9; 9; 9] 50 with
  | SbRet b0 => match sbuf_run b0 os with
                | SbRet (b, rs) => cstr (sb_mem b) = Some [97; 98; 99; 100; 101] /\
                    rs = [Some SBW_OK; Some SBW_SHRT; None; Some SBW_OK; Some SBW_ERR; Some SBW_OK] /\
                    sb_cp b = 75
                | _ => False
                end
  | _ => False
  end.
Proof. vm_compute. repeat split; try lia; intuition discriminate. Qed.
