(** Specification of training on real data. *)
From Coq Require Import QArith.
From Verif Require Import Base Strings TextSpec IterModel IterSpec.
Local Open Scope nat_scope.

(** What an iterator gives until it stops, and the iterator after that *)
Inductive yields {iter batch : Type} (next : iter -> option batch * iter) : iter -> list batch -> iter -> Prop :=
| yields_stop i i' : next i = (None, i') -> yields next i [] i'
| yields_batch i b i' bs i'' : next i = (Some b, i') -> yields next i' bs i'' -> yields next i (b :: bs) i''.
(** ... one time after another *)
Inductive passes {iter batch : Type} (next : iter -> option batch * iter) : iter -> list (list batch) -> iter -> Prop :=
| passes_none i : passes next i [] i
| passes_more i bs i' bss i'' : yields next i bs i' -> passes next i' bss i'' -> passes next i (bs :: bss) i''.

(** No sentence has more words (with the start and end tags) than the maximum length. *)
Definition fits (max_len : option nat) (ls : list (pystr * nat)) : Prop :=
  forall m line k u, max_len = Some m -> In (line, k) ls -> utterance_of line u -> length u <= m.

(** The lines that are left of an order *)
Definition lines_left (ls : list (pystr * nat)) (order : list nat) (next : nat) : list (pystr * nat) :=
  map (fun i => nth i ls ([], 0)) (skipn next order).

(** The sequences of the rest of a sentence *)
Definition rest_sequences (max_len : option nat) (b : list (pystr * nat)) (ss : list (list (pystr * nat))) : Prop :=
  exists ps, cut_into (match max_len with Some m => m | None => length b end) b ps /\ ss = filter (fun p => 2 <=? length p) ps.

(** A saved position in the data: something to read, and no line that does not exist *)
Definition position_in (ls : list (pystr * nat)) (s : iter_state) (order : list nat) (next : nat) : Prop :=
  s = mkIterState (Some order) (Some next) /\ order <> [] /\ Forall (fun i => i < length ls) order.
