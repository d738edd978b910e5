(** Model of theanolm/scoring/rescoredlattice.py. *)
From Coq Require Import QArith Qcanon.
From Verif Require Import Base Strings Dict VocabModel LatticeModel DecoderModel.
Local Open Scope nat_scope.

Notation word_map := (list (pystr * nat)).

Section Original.
Variable nodes : list node.
Variable links : list link.

(** rescoredlattice.py 197-203, next_words(). The fuel is larger than the depth of
    the recursion unless null links make a cycle (then Python's recursion limit is
    exceeded). *)
Fixpoint next_words (fuel : nat) (k : nat) : result (list pystr) :=
  match fuel with
  | 0 => Err OutOfFuel
  | S fuel' =>
    do l <- py_index links k;
    match k_word l with
    | None => do n <- py_index nodes (k_end l);
              do ws <- mapM (next_words fuel') (n_out n); Ok (concat ws)
    | Some w => Ok [w]
    end
  end.

(** rescoredlattice.py 207-209: word_to_link of one node *)
Definition word_map_of (n : node) : result word_map :=
  foldM (fun d k => do ws <- next_words (S (length nodes)) k;
                    Ok (fold_left (fun d w => dict_set pystr_eq_dec d w k) ws d))
        (n_out n) [].
(** rescoredlattice.py 184-217, _add_word_maps() *)
Definition add_word_maps : result (list word_map) := mapM word_map_of nodes.

Variable maps : list word_map.

(** "x if x is not None else 0.0" *)
Definition or_zero (x : option Qc) : Qc := match x with Some y => y | None => 0%Qc end.

(** rescoredlattice.py 14-55, _follow_word_from_node() *)
Fixpoint follow_word (fuel : nat) (i : nat) (w : pystr) : result (option (nat * Qc * Qc * pystr)) :=
  match fuel with
  | 0 => Err OutOfFuel
  | S fuel' =>
    do m <- py_index maps i;
    match dict_get pystr_eq_dec m w with
    | None => Ok None                                                  (* 34-35 *)
    | Some k =>
      do l <- py_index links k;                                        (* 37 *)
      match k_word l with
      | Some _ => Ok (Some (k_end l, or_zero (k_ac l), or_zero (k_lm l), k_transitions l)) (* 38-42 *)
      | None =>
        do x <- follow_word fuel' (k_end l) w;                         (* 44-45 *)
        Ok (match x with
            | None => None                                             (* 46-47 *)
            | Some (e, ac, lm, tr) =>
              Some (e, plus_option ac (k_ac l), plus_option lm (k_lm l), tr ++ k_transitions l) (* 49-55 *)
            end)
      end
    end
  end.
End Original.

(** A node of the new lattice, and its links. The final node has no number until
    the end, so links to it carry a mark. *)
Record rnode := mkRnode { r_out : list nat; r_map : word_map }.
Record rstate := mkRstate { r_nodes : list rnode; r_links : list (link * bool) }.

(** A new link, entered to the outgoing links of its start node *)
Definition r_add (st : rstate) (i : nat) (l : link) (final : bool) (word : option pystr) : result rstate :=
  do n <- py_index (r_nodes st) i;
  let k := length (r_links st) in
  Ok (mkRstate (upd (r_nodes st) i
                    (mkRnode (r_out n ++ [k])
                             (match word with Some w => dict_set pystr_eq_dec (r_map n) w k | None => r_map n end)))
               (r_links st ++ [(l, final)])).

Section Rescored.
Variable state : Type.
Variable v : vocabulary.
Variable a : lattice.
Variable maps : list word_map.

(** rescoredlattice.py 219-274, _follow_words(); the loop from a node of the new
    lattice and a node of the original lattice. None: NodeNotFoundError. *)
Fixpoint follow_words (create : bool) (words : list pystr) (st : rstate) (node orig : nat)
  : result (option (rstate * nat)) :=
  match words with
  | [] => Ok (Some (st, node))
  | w :: words =>
    do x <- follow_word (a_links a) maps (S (length (a_nodes a))) orig w; (* 249-250 *)
    match x with
    | None => follow_words create words st node orig                   (* 251-252 *)
    | Some (orig_end, ac, lm, tr) =>
      do n <- py_index (r_nodes st) node;
      match dict_get pystr_eq_dec (r_map n) w with
      | Some k => do l <- py_index (r_links st) k;                     (* 256-257 *)
                  follow_words create words st (k_end (fst l)) orig_end
      | None =>
        if create then
          let e := length (r_nodes st) in                              (* 261-264 *)
          let st := mkRstate (r_nodes st ++ [mkRnode [] []]) (r_links st) in
          do st <- r_add st node (mkLink node e (Some w) (Some ac) (Some lm) tr) false (Some w); (* 265-269 *)
          follow_words create words st e orig_end
        else Ok None                                                   (* 259-260 *)
      end
    end
  end.

(** rescoredlattice.py 90-105, follow_word_ids() *)
Definition word_text (w : hword) : result pystr :=
  match w with inl i => py_index (v_id_to_word v) i | inr s => Ok s end.
Definition follow_word_ids (create : bool) (history : list hword) (st : rstate) : result (option (rstate * nat)) :=
  do words <- mapM word_text (tl history);
  follow_words create words st 0 (a_initial a).

(** rescoredlattice.py 121-135, one final token *)
Definition add_final_token (st : rstate) (t : token state) : result rstate :=
  do x <- follow_word_ids true (tk_history _ t) st;
  match x with
  | None => Err RuntimeError                    (* with create=True never raised *)
  | Some (st, i) =>
    do n <- py_index (r_nodes st) i;
    do outs <- mapM (py_index (r_links st)) (r_out n);
    if existsb snd outs then Ok st                                     (* 125-126 *)
    else r_add st i (mkLink i 0 None (Some 0%Qc) (Some (tk_nn _ t)) []) true None (* 130-135 *)
  end.

(** rescoredlattice.py 139-175, one recombined token *)
Definition add_recombined (st : rstate) (x : dropped state) : result rstate :=
  let '(t, new_history, nn) := x in
  match rev new_history, rev (tk_history _ t) with
  | last' :: rest', last :: rest =>
    if (match last', last with
        | inl i, inl j => i =? j | inr s, inr u => pystr_eqb s u | _, _ => false end) then (* 140 *)
      do word <- word_text last;                                       (* 141-146 *)
      do found <- follow_word_ids false (rev rest') st;                (* 150-153 *)
      match found with
      | None => Ok st
      | Some (st, from) =>
        do n <- py_index (r_nodes st) from;
        match dict_get pystr_eq_dec (r_map n) word with
        | None => Ok st                                                (* 156-157 *)
        | Some k =>
          do '(recomb_link, _) <- py_index (r_links st) k;             (* 158 *)
          do y <- follow_word_ids true (rev rest) st;                  (* 164 *)
          match y with
          | None => Err RuntimeError            (* with create=True never raised *)
          | Some (st, i) =>
            let diff := (tk_nn _ t - nn)%Qc in                         (* 165 *)
            r_add st i (mkLink i (k_end recomb_link) (Some word) (k_ac recomb_link)
                               (Some (or_zero (k_lm recomb_link) + diff)%Qc) (* 166-169 *)
                               (k_transitions recomb_link)) false (Some word) (* 170-175 *)
          end
        end
      end
    else Err AssertionError
  | _, _ => Err IndexError
  end.

End Rescored.

(** rescoredlattice.py 65-182, __init__(). The incoming links of nodes are not
    filled in (the code does not either). A link never has lm_logprob None. *)
Definition rescored_lattice (state : Type) (v : vocabulary) (a : lattice)
           (final_tokens : list (token state)) (recomb_tokens : list (dropped state)) : result lattice :=
  do maps <- add_word_maps (a_nodes a) (a_links a);                    (* 118 *)
  do st <- foldM (add_final_token state v a maps) final_tokens (mkRstate [mkRnode [] []] []); (* 111-116, 121-135 *)
  do st <- foldM (add_recombined state v a maps) (rev recomb_tokens) st; (* 139-175 *)
  let final_id := length (r_nodes st) in                               (* 181 *)
  Ok (mkLattice (map (fun n => mkNode (r_out n) [] None false) (r_nodes st) ++ [mkNode [] [] None true]) (* 182 *)
                (map (fun lf : link * bool => let l : link := fst lf in
                        if snd lf : bool
                        then mkLink (k_start l) final_id (k_word l) (k_ac l) (k_lm l) (k_transitions l)
                        else l) (r_links st))
                0 (a_utterance a) None None).                          (* 109; scales are set later *)
