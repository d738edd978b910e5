(** Independent specification of the output of the decode command. *)
From Coq Require Import QArith Qcanon Sorted.
From Verif Require Import Base Strings VocabModel LatticeModel LatticeSpec SlfModel KaldiModel DecoderModel DecoderSpec CommandModel.
Local Open Scope nat_scope.

(** The words on the links of a path *)
Definition link_texts (p : list link) : list pystr :=
  flat_map (fun l => match k_word l with Some w => [w] | None => [] end) p.
(** The words that are printed for a path: those of the links between <s> and </s> *)
Definition sentence (p : list link) : list pystr := SOS :: link_texts p ++ [EOS].

(** The fields of a line, separated by spaces. Scores are printed in the chosen base. *)
Definition line_fields (show_num : Qc -> pystr) (format : output_format) (id : pystr) (scale ac graph total : Qc)
           (words : list pystr) : list pystr :=
  match format with
  | out_ref => id :: words
  | out_trn => words ++ [str "(" ++ id ++ str ")"]
  | _ => id :: show_num (ac / scale)%Qc :: show_num (graph / scale)%Qc :: show_num (total / scale)%Qc
            :: show_int (length words) :: words
  end.
Definition text_output (c : arguments) : Prop :=
  c_output c = out_ref \/ c_output c = out_trn \/ c_output c = out_full.

(** The scores of the command line and of the output are in the base that was given, and
    otherwise natural logarithms. *)
Definition command_scale (nlog : Qc -> Qc) (c : arguments) : Qc :=
  match c_log_base c with Some b => nlog (Q2Qc (inject_Z (Zpos b))) | None => 1%Qc end.
(** The settings of the decoder. Only the word insertion penalty is converted to natural
    logarithms, and no limit depends on the number of tokens. *)
Definition settings (nlog : Qc -> Qc) (c : arguments) : options :=
  {| o_weight := c_weight c;
     o_lm_scale := c_lm_scale c;
     o_wi_penalty := option_map (fun w => (w * command_scale nlog c)%Qc) (c_wi_penalty c);
     o_unk_penalty := c_unk_penalty c;
     o_use_shortlist := c_shortlist c;
     o_unk_from_lattice := c_unk_from_lattice c;
     o_linear := c_linear c;
     o_max_tokens := c_max_tokens c;
     o_beam := c_beam c;
     o_order := c_order c;
     o_extra_limit := None;
     o_min_beam := c_min_beam c;
     o_min_tokens := c_min_tokens c |}.

Section Lines.
Variable nlog : Qc -> Qc.
Variable show_num : Qc -> pystr.
Variable state : Type.
Variable initial_state : state.
Variable f : nat * nat * nat * state -> Qc * state.
Variable ln : Qc -> Qc.
Variable lin : Qc -> Qc -> Qc -> Qc.
Variable hash : list hword -> Z.
Variable v : vocabulary.
Variable c : arguments.
Notation o := (settings nlog c).

(** The line of the hypothesis that follows the path [p] *)
Definition line_of (id : pystr) (h : list link * token state) : pystr :=
  let (p, t) := h in
  join (str " ") (line_fields show_num (c_output c) id (command_scale nlog c) (tk_ac _ t) (tk_graph _ t) (tk_total _ t)
                              (sentence p)) ++ [newline].

(** Nothing is pruned, hypotheses are recombined only if all their words are the
    same, and hashing tells word sequences apart. *)
Definition exhaustive (a : lattice) : Prop :=
  c_beam c = None /\ c_max_tokens c = None /\ c_order c = None /\ c_linear c = false /\
  no_collisions state initial_state f ln lin v o hash a /\
  ~ cyclic a /\ (forall i, i < length (a_nodes a) -> reachable_node a i).

(** [ranking a best]: complete hypotheses of the lattice with their scores, the best
    first, no two of which are the same to recombination. If the decoding is
    exhaustive, the best path of every word sequence is there. *)
Record ranking (a : lattice) (best : list (list link * token state)) : Prop := {
  rk_some : best <> [];
  rk_paths : forall p t, In (p, t) best -> hypothesis_at state initial_state f ln lin v o a None p t;
  rk_sorted : StronglySorted (fun x y => (tk_total _ (snd y) <= tk_total _ (snd x))%Qc) best;
  rk_distinct : forall i j x y r, nth_error best i = Some x -> nth_error best j = Some y ->
    recent o (tk_history _ (snd x)) r -> recent o (tk_history _ (snd y)) r -> i = j;
  rk_all : exhaustive a -> forall p h, hypothesis_at state initial_state f ln lin v o a None p h ->
    exists p' t, In (p', t) best /\ link_texts p' = link_texts p /\ (tk_total _ h <= tk_total _ t)%Qc
}.

(** The hypotheses that are printed: at most [n], or all but the [-n] worst ones if
    [n] is negative *)
Definition shown {A} (n : Z) (best : list A) : list A :=
  firstn (if (0 <=? n)%Z then Z.to_nat n else length best - Z.to_nat (- n)) best.
(** The lines of one lattice *)
Definition lines_of_lattice (id : pystr) (a : lattice) (lines : list pystr) : Prop :=
  exists best, ranking a best /\ lines = map (line_of id) (shown (c_n_best c) best).
End Lines.

(** The utterance ID: that of the lattice, otherwise its number in the job *)
Definition utterance_of (number : nat) (a : lattice) : pystr :=
  match a_utterance a with Some u => u | None => show_int number end.

(** ** The whole command *)

(** A Kaldi vocabulary is given if it is needed. *)
Definition vocabulary_given (c : arguments) : Prop :=
  c_format c = in_kaldi \/ c_output c = out_kaldi -> c_kaldi_vocabulary c <> None.

Section Start.
Variable parse_int : pystr -> result Z.
Variable parse_float : pystr -> result Qc.
Variable nlog : Qc -> Qc.
Variable read_file : pystr -> result pystr.
Variable c : arguments.

(** [started w2i lattices]: the arguments are valid, and these are the lattices of
    the files of the job in order, or the exceptions that reading them raises. *)
Definition started (w2i : list (pystr * Z)) (lattices : list (result lattice)) : Prop :=
  vocabulary_given c /\ exists table paths,
    batch_vocabulary parse_int c = Ok (w2i, table) /\
    job_lattices (c_lattices c) (c_lattice_list c) (c_num_jobs c) (c_job c) = Ok paths /\
    lattices = batch_lattices parse_int parse_float nlog read_file (c_format c) table paths.

(** Every lattice in the files has an utterance ID. *)
Definition all_have_ids : Prop :=
  forall w2i table, batch_vocabulary parse_int c = Ok (w2i, table) ->
  forall a, In (Ok a) (batch_lattices parse_int parse_float nlog read_file (c_format c) table
                                      (lattice_paths (c_lattices c) (c_lattice_list c))) -> a_utterance a <> None.
End Start.

(** The same command for job [j] of [n] *)
Definition with_job (c : arguments) (n j : Z) : arguments :=
  mkArguments (c_lattices c) (c_lattice_list c) (c_format c) (c_kaldi_vocabulary c) n j (c_output c) (c_n_best c)
    (c_weight c) (c_lm_scale c) (c_wi_penalty c) (c_log_base c) (c_unk_penalty c) (c_shortlist c) (c_unk_from_lattice c)
    (c_linear c) (c_max_tokens c) (c_beam c) (c_order c) (c_prune_relative c) (c_min_tokens c) (c_min_beam c).
(** The same command with other limits of relative pruning *)
Definition with_relative (c : arguments) (r : option Z) (t : Z) (b : Qc) : arguments :=
  mkArguments (c_lattices c) (c_lattice_list c) (c_format c) (c_kaldi_vocabulary c) (c_num_jobs c) (c_job c) (c_output c) (c_n_best c)
    (c_weight c) (c_lm_scale c) (c_wi_penalty c) (c_log_base c) (c_unk_penalty c) (c_shortlist c) (c_unk_from_lattice c)
    (c_linear c) (c_max_tokens c) (c_beam c) (c_order c) r t b.

(** A field that is a field after splitting the line at white space *)
Definition one_field (s : pystr) : Prop := s <> [] /\ forall ch, In ch s -> is_space ch = false.
