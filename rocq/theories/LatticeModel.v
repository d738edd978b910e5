(** Model of theanolm/scoring/lattice.py. The log probabilities, scales and times
    are exact numbers; infinities and NaN are not modelled in lattices. *)
From Coq Require Import QArith Qcanon.
From Verif Require Import Base Strings.
Local Open Scope nat_scope.

(** lattice.py 21-58, Link. Nodes are referred to by their IDs, which are their
    positions in the node list. *)
Record link := mkLink {
  k_start : nat;
  k_end : nat;
  k_word : option pystr;
  k_ac : option Qc;
  k_lm : option Qc;
  k_transitions : pystr
}.

(** lattice.py 60-80, Node. Links are referred to by their positions in the link
    list. The attribute best_logprob belongs to the decoder. *)
Record node := mkNode {
  n_out : list nat;
  n_in : list nat;
  n_time : option Qc;
  n_final : bool
}.
Definition new_node : node := mkNode [] [] None false.

(** lattice.py 82-91, Lattice *)
Record lattice := mkLattice {
  a_nodes : list node;
  a_links : list link;
  a_initial : nat;
  a_utterance : option pystr;
  a_lm_scale : option Qc;
  a_wi_penalty : option Qc
}.

(** lattice.py 208-225, _add_link(), on the lists of nodes and links. Both nodes
    are in the list. *)
Definition add_out (nodes : list node) (i k : nat) : list node :=
  match nth_error nodes i with
  | Some n => upd nodes i (mkNode (n_out n ++ [k]) (n_in n) (n_time n) (n_final n))
  | None => nodes
  end.
Definition add_in (nodes : list node) (i k : nat) : list node :=
  match nth_error nodes i with
  | Some n => upd nodes i (mkNode (n_out n) (n_in n ++ [k]) (n_time n) (n_final n))
  | None => nodes
  end.
Definition add_link (g : list node * list link) (l : link) : list node * list link :=
  let (nodes, links) := g in
  let k := length links in
  (add_in (add_out nodes (k_start l) k) (k_end l) k,                   (* 223-224 *)
   links ++ [l]).                                                      (* 222 *)

(** Python's stable list.sort(reverse=True) and sorted(reverse=True), as an
    insertion sort; [lt] compares the keys. *)
Fixpoint insert_desc {A} (lt : A -> A -> bool) (x : A) (l : list A) : list A :=
  match l with
  | [] => [x]
  | y :: l' => if lt y x then x :: l else y :: insert_desc lt x l'
  end.
Definition sort_desc {A} (lt : A -> A -> bool) (l : list A) : list A :=
  fold_left (fun acc x => insert_desc lt x acc) l [].

(** lattice.py 196: order of the keys (time is None, time) *)
Definition time_lt (a b : option Qc) : bool :=
  match a, b with
  | Some x, Some y => if Qclt_le_dec x y then true else false
  | Some _, None => true
  | None, _ => false
  end.
Definition node_time (nodes : list node) (i : nat) : option Qc :=
  match nth_error nodes i with Some n => n_time n | None => None end.
Definition sort_queue (nodes : list node) (queue : list nat) : list nat :=
  sort_desc (fun a b => time_lt (node_time nodes a) (node_time nodes b)) queue.

(** lattice.py 191-199, one outgoing link; [in_degrees] and [node_queue]. An entry
    of [in_degrees] that is to become negative raises the exception, so natural
    numbers are enough. *)
Definition visit_out (nodes : list node) (links : list link)
           (st : list nat * list nat) (k : nat) : result (list nat * list nat) :=
  let (in_degrees, queue) := st in
  do l <- py_index links k;
  do d <- py_index in_degrees (k_end l);                               (* 192-193 *)
  match d with
  | 0 => Err InputError                                                (* 198-199 *)
  | 1 => Ok (upd in_degrees (k_end l) 0, sort_queue nodes (queue ++ [k_end l])) (* 194-197 *)
  | S d' => Ok (upd in_degrees (k_end l) d', queue)
  end.

(** lattice.py 188-199, the while loop *)
Fixpoint sort_loop (fuel : nat) (nodes : list node) (links : list link)
         (in_degrees queue result : list nat) : Base.result (list nat) :=
  match fuel with
  | 0 => Err OutOfFuel
  | S fuel' =>
    match rev queue with
    | [] => Ok result
    | i :: queue_rev =>                                                (* 189 *)
      do n <- py_index nodes i;
      do '(in_degrees, queue) <-
         foldM (visit_out nodes links) (n_out n) (in_degrees, rev queue_rev);
      sort_loop fuel' nodes links in_degrees queue (result ++ [i])     (* 190 *)
    end
  end.

(** lattice.py 174-206, sorted_nodes(): node IDs in sorted order *)
Definition sorted_nodes (a : lattice) : Base.result (list nat) :=
  do result <- sort_loop (S (S (length (a_nodes a)))) (a_nodes a) (a_links a)
                 (map (fun n => length (n_in n)) (a_nodes a))          (* 187 *)
                 [a_initial a] [];                                     (* 185 *)
  if length (a_nodes a) <? length result then Err AssertionError       (* 204 *)
  else Ok result.
