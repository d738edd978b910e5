(** Model of theanolm/scoring/kaldilattice.py, latticebatch.py and of
    Lattice.write_kaldi(). *)
From Coq Require Import QArith Qcanon.
From Verif Require Import Base Strings Dict LatticeModel SlfModel.
Local Open Scope nat_scope.

Definition comma : char := 44%N.
Definition EPS : pystr := str "<eps>".

(** s.split(',') *)
Fixpoint split_comma (s : pystr) : list pystr :=
  match s with
  | [] => [[]]
  | c :: s' =>
    if N.eqb c comma then [] :: split_comma s'
    else match split_comma s' with
         | [] => [[c]]
         | p :: ps => (c :: p) :: ps
         end
  end.

Section Kaldi.
Variable parse_int : pystr -> result Z.
Variable parse_float : pystr -> result Qc.

(** kaldilattice.py 13-33, read_kaldi_vocabulary() *)
Definition read_kaldi_vocabulary (lines : list pystr) : result (dict pystr Z) :=
  foldM (fun result line =>
           match split line with
           | [] => Ok result                                           (* 26-27 *)
           | [word; id] => do id <- parse_int id; Ok (dict_set pystr_eq_dec result word id)
           | _ => Err InputError                                       (* 28-29 *)
           end) lines [].

(** latticebatch.py 44-48: kaldi_id_to_word *)
Definition kaldi_id_to_word (word_to_id : dict pystr Z) : result (list (option pystr)) :=
  foldM (fun table wi => do i <- py_position (length table) (snd wi);
                         Ok (upd table i (Some (fst wi))))
        word_to_id (repeat None (length word_to_id)).

(** State of reading. Links to the final node, which has no ID yet, are marked by
    the end [None]. [kg_final_in] are the incoming links of the final node. *)
Record kaldi_state := mkKaldi {
  kg_nodes : list node;
  kg_links : list (link * bool);      (* true: the end is the final node *)
  kg_final_in : list nat;
  kg_initial : option Z
}.

(** kaldilattice.py 105-109: nodes up to the given ID *)
Definition grow (nodes : list node) (id : Z) : list node :=
  nodes ++ repeat new_node (Z.to_nat (id + 1) - length nodes).

(** kaldilattice.py 92-99: a cost, negated; an empty string is zero *)
Definition read_cost (s : option pystr) : result Qc :=
  match s with
  | None | Some [] => Ok 0%Qc
  | Some s => do x <- parse_float s; Ok (- x)%Qc
  end.

(** kaldilattice.py 71-128, one line after the first *)
Definition read_kaldi_line (id_to_word : list (option pystr)) (st : kaldi_state) (line : pystr)
  : result kaldi_state :=
  let parts := split (strip line) in                                   (* 72-73 *)
  match parts with
  | [] => Ok st                                                        (* 74-75 *)
  | from :: rest =>
    do '(to, weight) <- match rest with
                        | [] => Ok (None, [])                          (* 76-78 *)
                        | [weight] => Ok (None, weight)                (* 79-81 *)
                        | [to; word; weight] =>                        (* 82-85 *)
                          do to <- parse_int to; do word <- parse_int word;
                          Ok (Some (to, word), weight)
                        | _ => Err InputError                          (* 86-88 *)
                        end;
    do state_from <- parse_int from;                                   (* 89 *)
    let weight_parts := split_comma weight in                          (* 91 *)
    do graph_logprob <- read_cost (nth_error weight_parts 0);          (* 92-95 *)
    do ac_logprob <- read_cost (nth_error weight_parts 1);             (* 96-99 *)
    let transitions := match nth_error weight_parts 2 with Some t => t | None => [] end in
    let initial := match kg_initial st with Some i => Some i | None => Some state_from end in
                                                                       (* 102-103 *)
    let nodes := grow (kg_nodes st) state_from in                      (* 105-106 *)
    let k := length (kg_links st) in
    match to with
    | Some (state_to, word) =>
      let nodes := grow nodes state_to in                              (* 108-109 *)
      do s <- py_position (length nodes) state_from;
      do e <- py_position (length nodes) state_to;
      do w <- py_position (length id_to_word) word;                    (* 111 *)
      do word <- py_index id_to_word w;
      do word <- match word with
                 | None => Ok None
                 | Some w =>
                   if pystr_eq_dec w EPS then Ok None                  (* 112-113 *)
                   else if pystr_eqb w (str "#0") || pystr_eqb w SOS || pystr_eqb w EOS
                        then Err InputError                            (* 114-121 *)
                        else Ok (Some w)
                 end;
      Ok (mkKaldi (add_in (add_out nodes s k) e k)                     (* 110 *)
                  (kg_links st ++ [(mkLink s e word (Some ac_logprob) (Some graph_logprob) transitions, false)])
                  (kg_final_in st) initial)
    | None =>
      do s <- py_position (length nodes) state_from;                   (* 123 *)
      Ok (mkKaldi (add_out nodes s k)
                  (kg_links st ++ [(mkLink s 0 None (Some ac_logprob) (Some graph_logprob) transitions, true)])
                  (kg_final_in st ++ [k]) initial)
    end
  end.

(** kaldilattice.py 41-136, __init__() *)
Definition read_kaldi (lines : list pystr) (id_to_word : list (option pystr)) : result lattice :=
  match lines with
  | [] => Err IndexError                                               (* 70 *)
  | first :: rest =>
    do st <- foldM (read_kaldi_line id_to_word) rest (mkKaldi [] [] [] None);
    match kg_initial st with
    | None => Err InputError                                           (* 130-132 *)
    | Some i =>
      do initial <- py_position (length (kg_nodes st)) i;              (* 133 *)
      let final_id := length (kg_nodes st) in                          (* 135 *)
      let links := map (fun lf => let l : link := fst lf in
                          if snd lf : bool
                          then mkLink (k_start l) final_id (k_word l) (k_ac l) (k_lm l) (k_transitions l)
                          else l) (kg_links st) in
      Ok (mkLattice (kg_nodes st ++ [mkNode [] (kg_final_in st) None true]) (* 136 *)
                    links initial (Some (strip first)) None None)
    end
  end.

(** ** lattice.py 136-172, write_kaldi() *)
Variable show_num : Qc -> pystr.
Variable show_z : Z -> pystr.

Definition dict_lookup (d : dict pystr Z) (w : pystr) : result Z :=
  match dict_get pystr_eq_dec d w with Some i => Ok i | None => Err KeyError end.

(** -None raises TypeError. *)
Definition neg_cost (x : option Qc) : result pystr :=
  match x with Some x => Ok (show_num (- x)%Qc) | None => Err TypeError end.

(** lattice.py 146-171, one link *)
Definition kaldi_link_line (word_to_id : dict pystr Z) (nodes : list node) (l : link)
  : result pystr :=
  do nd <- py_index nodes (k_end l);
  if n_final nd                                                        (* 168 *)
  then                                                                 (* 158-163 *)
    do lm <- neg_cost (k_lm l); do ac <- neg_cost (k_ac l);
    Ok (show_int (k_start l) ++ str " " ++ lm ++ str "," ++ ac ++ str ","
        ++ k_transitions l ++ [newline])
  else                                                                 (* 146-156 *)
    do word <- dict_lookup word_to_id (match k_word l with Some w => w | None => EPS end);
    do lm <- neg_cost (k_lm l); do ac <- neg_cost (k_ac l);
    Ok (show_int (k_start l) ++ str " " ++ show_int (k_end l) ++ str " " ++ show_z word ++ str " "
        ++ lm ++ str "," ++ ac ++ str "," ++ k_transitions l ++ [newline]).

(** lattice.py 165-172, the lines of the lattice *)
Definition kaldi_lines (word_to_id : dict pystr Z) (a : lattice) : result (list pystr) :=
  do body <- mapM (fun nd => mapM (fun k => do l <- py_index (a_links a) k;
                                            kaldi_link_line word_to_id (a_nodes a) l)
                                  (n_out nd)) (a_nodes a);
  Ok ([match a_utterance a with Some u => u | None => str "None" end ++ [newline]]
      ++ concat body ++ [[newline]]).
Definition write_kaldi (word_to_id : dict pystr Z) (a : lattice) : result pystr :=
  do ls <- kaldi_lines word_to_id a; Ok (concat ls).

End Kaldi.

(** ** latticebatch.py *)

(** l[start::step] *)
Fixpoint slice_step {A} (fuel : nat) (l : list A) (start step : nat) : list A :=
  match fuel with
  | 0 => []
  | S fuel' =>
    match nth_error l start with
    | None => []
    | Some x => x :: slice_step fuel' l (start + step) step
    end
  end.

(** latticebatch.py 57-73: the paths of the job. Job numbers are integers. *)
Definition job_lattices (lattices list_lines : list pystr) (num_jobs job_id : Z)
  : result (list pystr) :=
  let paths := filter (fun p => negb (pystr_eqb p [])) (map strip (lattices ++ list_lines)) in
                                                                       (* 58-62 *)
  let paths := match paths with [] => [str "-"] | _ => paths end in    (* 63-64 *)
  if (num_jobs <? 1)%Z then Err ValueError                             (* 67-69 *)
  else if (job_id <? 0)%Z || (num_jobs - 1 <? job_id)%Z then Err ValueError (* 70-72 *)
  else Ok (slice_step (length paths) paths (Z.to_nat job_id) (Z.to_nat num_jobs)). (* 73 *)

(** latticebatch.py 88-104: the lines of the lattices in a Kaldi archive, given the
    lines of the file; [acc] is lattice_lines. *)
Fixpoint kaldi_archive (lines : list pystr) (acc : list pystr) : list (list pystr) :=
  match lines with
  | [] => match acc with [] => [] | _ => [acc] end                     (* 92-96 *)
  | line :: lines' =>
    match strip line with
    | [] => match acc with
            | [] => kaldi_archive lines' []
            | _ => acc :: kaldi_archive lines' []                      (* 98-103 *)
            end
    | l => kaldi_archive lines' (acc ++ [l])                           (* 104 *)
    end
  end.
