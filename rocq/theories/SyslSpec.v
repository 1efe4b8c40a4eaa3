(** A log with a queue of lines and a number of free places, without pointers. *)
From Verif Require Import Base SyslModel.

Inductive bwork := BIdle | BHas (l : line) | BDone | BExit.
Record ab := Ab { b_free : nat; b_held : list line; b_q : list line; b_w : bwork; b_out : list (Z * list Z); b_drop : Z; b_put : list line }.
Definition b_init (size : nat) : ab := Ab size [] [] BIdle [] 0 [].

Definition b_step (b : ab) (o : op) : ab :=
  match o with
  | OGet p t =>
      match b_free b with
      | O => Ab O (b_held b) (b_q b) (b_w b) (b_out b) (b_drop b + 1) (b_put b)
      | S n => Ab n (b_held b ++ [Some (p, t)]) (b_q b) (b_w b) (b_out b) (b_drop b) (b_put b)
      end
  | OGetExit =>
      match b_free b with
      | O => b
      | S n => Ab n (b_held b ++ [None]) (b_q b) (b_w b) (b_out b) (b_drop b) (b_put b)
      end
  | OPut n =>
      match nth_error (b_held b) n with
      | None => b
      | Some l => Ab (b_free b) (drop_nth n (b_held b)) (b_q b ++ [l]) (b_w b) (b_out b) (b_drop b) (b_put b ++ [l])
      end
  | OTake =>
      match b_w b, b_q b with
      | BIdle, l :: q => Ab (b_free b) (b_held b) q (BHas l) (b_out b) (b_drop b) (b_put b)
      | _, _ => b
      end
  | OWrite =>
      match b_w b with
      | BHas (Some l) => Ab (b_free b) (b_held b) (b_q b) BDone (b_out b ++ [l]) (b_drop b) (b_put b)
      | BHas None => Ab (b_free b) (b_held b) (b_q b) BExit (b_out b) (b_drop b) (b_put b)
      | _ => b
      end
  | OFree =>
      match b_w b with
      | BDone => Ab (S (b_free b)) (b_held b) (b_q b) BIdle (b_out b) (b_drop b) (b_put b)
      | _ => b
      end
  end.
Definition b_run (b : ab) (l : list op) : ab := fold_left b_step l b.

(** The lines that were taken from the queue and are not written *)
Definition taken (w : bwork) : list line := match w with BHas l => [l] | BExit => [None] | _ => [] end.
