(** C12: a registry as a list of (uid, object), and when callbacks are due. *)
From Coq Require Import Permutation.
From Verif Require Import Base HashModel HashSpec WeakrefModel.

Notation went := (Z * Z * Z)%type.   (* handle, uid, object *)
Notation uid_is := (of_key Z.eqb).

(** Calls due when the registry goes from [old] to [new]: on_first ([true]) when it stops being
    empty, on_last ([false]) when it becomes empty; only if the callback is set. *)
Definition due (f l : bool) (old new : list went) : list bool :=
  match old, new with
  | [], _ :: _ => if f then [true] else []
  | _ :: _, [] => if l then [false] else []
  | _, _ => []
  end.

(** What an operation on a registry holding [l], the other one holding [m], answers and leaves.*)
Inductive ws_step (nid : Z) : list went -> list went -> wr_op -> wr_out -> list went -> list went -> Prop :=
| ws_reg l m u v mem : uid_is u l = [] -> ws_step nid l m (WReg u v mem) (WInt 0) (l ++ [(nid, u, v)]) m
| ws_reg_dup l m u v mem : uid_is u l <> [] -> ws_step nid l m (WReg u v mem) WAbort l m
| ws_unreg l m u e r : uid_is u l = e :: r ->
    ws_step nid l m (WUnreg u) (WPtr (Some (m_val e))) (without [m_id e] l) m
| ws_unreg_none l m u : uid_is u l = [] -> ws_step nid l m (WUnreg u) (WPtr None) l m
| ws_get l m u : ws_step nid l m (WGet u) (WPtr (option_map m_val (hd_error (uid_is u l)))) l m
| ws_foreach l m f ord dels seen : Permutation ord l -> visit f ord [] = (dels, seen) ->
    ws_step nid l m (WForeach f) (WSeen seen) (without dels l) m
| ws_length l m : ws_step nid l m WLength (WInt (Z.of_nat (length l))) l m
| ws_purge l m n : (n > 0 <-> l <> []) -> ws_step nid l m WPurge (WInt n) [] m
| ws_move l m u mem e r : uid_is u l = e :: r -> uid_is u m = [] ->
    ws_step nid l m (WMove u mem) (WPtr (Some (m_val e))) (without [m_id e] l) (m ++ [e])
| ws_move_none l m u mem : uid_is u l = [] -> ws_step nid l m (WMove u mem) (WPtr None) l m
| ws_move_dup l m u mem : uid_is u l <> [] -> uid_is u m <> [] -> ws_step nid l m (WMove u mem) WAbort l m.

(** Histories over two registries; the calls due to their callbacks accumulate in [ea], [eb].
    A history ends at an abort. *)
Inductive ws_exec (cf cl : bool * bool) : Z -> list went -> list went -> list bool -> list bool ->
    list (bool * wr_op) -> list wr_out -> list went -> list went -> list bool -> list bool -> Prop :=
| wx_nil nid l m ea eb : ws_exec cf cl nid l m ea eb [] [] l m ea eb
| wx_abort nid l m ea eb (r : bool) o os :
    (if r then ws_step nid m l o WAbort m l else ws_step nid l m o WAbort l m) ->
    ws_exec cf cl nid l m ea eb ((r, o) :: os) [WAbort] l m ea eb
| wx_step nid l m ea eb (r : bool) o out l' m' os outs l2 m2 ea2 eb2 :
    (if r then ws_step nid m l o out m' l' else ws_step nid l m o out l' m') ->
    out <> WAbort -> out <> WBad ->
    ws_exec cf cl (nid + 1) l' m' (ea ++ due (fst cf) (fst cl) l l') (eb ++ due (snd cf) (snd cl) m m') os outs l2 m2 ea2 eb2 ->
    ws_exec cf cl nid l m ea eb ((r, o) :: os) (out :: outs) l2 m2 ea2 eb2.

(** on_first, on_last, on_first, ...: [alternating b ev]: starts with [b]. *)
Fixpoint alternating (b : bool) (ev : list bool) : Prop :=
  match ev with [] => True | x :: t => x = b /\ alternating (negb b) t end.
