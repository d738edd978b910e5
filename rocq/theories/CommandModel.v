(** Model of theanolm/commands/decode.py and of LatticeBatch.__iter__(). *)
From Coq Require Import QArith Qcanon.
From Verif Require Import Base Strings Dict VocabModel LatticeModel SlfModel KaldiModel DecoderModel RescoredModel.
Local Open Scope nat_scope.

(** decode.py 40-43 and 67-68, the choices of --lattice-format and --output *)
Inductive lattice_format := in_slf | in_kaldi.
Inductive output_format := out_ref | out_trn | out_full | out_slf | out_kaldi.

(** decode.py 19-164, the arguments that matter here. --log-base is an integer of
    at least two (1 makes the scores infinite, anything less makes them NaN). *)
Record arguments := mkArguments {
  c_lattices : list pystr;
  c_lattice_list : list pystr;               (* the lines of the file, [] without one *)
  c_format : lattice_format;
  c_kaldi_vocabulary : option (list pystr);  (* the lines of the file *)
  c_num_jobs : Z;
  c_job : Z;
  c_output : output_format;
  c_n_best : Z;
  c_weight : Qc;
  c_lm_scale : option Qc;
  c_wi_penalty : option Qc;
  c_log_base : option positive;
  c_unk_penalty : option Qc;
  c_shortlist : bool;
  c_unk_from_lattice : bool;
  c_linear : bool;
  c_max_tokens : option Z;
  c_beam : option Qc;
  c_order : option Z;
  c_prune_relative : option Z;
  c_min_tokens : Z;
  c_min_beam : Qc
}.

(** How the command ends: normally, by sys.exit(1), or by an exception *)
Inductive status := finished | exited | raised (e : exn).

(** l[:k] *)
Definition slice_to {A} (l : list A) (k : Z) : list A :=
  firstn (Z.to_nat (if (k <? 0)%Z then Z.of_nat (length l) + k else k)) l.

Section Command.
(** int(), float(), numpy.log() of a base, str() of numbers and integers *)
Variable parse_int : pystr -> result Z.
Variable parse_float : pystr -> result Qc.
Variable nlog : Qc -> Qc.
Variable show_num : Qc -> pystr.
Variable show_z : Z -> pystr.
(** The contents of a file, or the exception that opening it raises. *)
Variable read_file : pystr -> result pystr.
(** The network and the other parameters of the decoder *)
Variable state : Type.
Variable initial_state : state.
Variable net_step : list (nat * nat * nat * state) -> list (Qc * state).
Variable ln : Qc -> Qc.
Variable lin : Qc -> Qc -> Qc -> Qc.
Variable hash : list hword -> Z.
Variable v : vocabulary.

(** decode.py 202 *)
Definition log_scale (c : arguments) : Qc :=
  match c_log_base c with None => 1%Qc | Some b => nlog (Q2Qc (Zpos b # 1)) end.

(** decode.py 207-225 and latticedecoder.py 283-298. The decoder looks up
    'prune_extra_limit', which decode.py does not set: 'prune_relative' is not used. *)
Definition decoding_options (c : arguments) : options :=
  mkOptions (c_weight c) (c_lm_scale c)
            (match c_wi_penalty c with None => None | Some w => Some (w * log_scale c)%Qc end)
            (c_unk_penalty c) (c_shortlist c) (c_unk_from_lattice c) (c_linear c)
            (c_max_tokens c) (c_beam c) (c_order c) None (c_min_beam c) (c_min_tokens c).

(** latticebatch.py 43-56, the Kaldi vocabulary: word_to_id and id_to_word *)
Definition batch_vocabulary (c : arguments) : result (dict pystr Z * list (option pystr)) :=
  match c_kaldi_vocabulary c, c_format c with
  | Some lines, _ =>
    do w2i <- read_kaldi_vocabulary parse_int lines;
    do table <- kaldi_id_to_word w2i;
    Ok (w2i, table)
  | None, in_kaldi => Err ValueError
  | None, in_slf => Ok ([], [])
  end.

(** latticebatch.py 75-104, __iter__(): what the generator yields, up to and
    including the first exception. Later elements of the list are never asked for. *)
Definition batch_lattices (format : lattice_format) (id_to_word : list (option pystr)) (paths : list pystr)
  : list (result lattice) :=
  flat_map (fun path =>
    match read_file path with                                          (* 83 *)
    | Err e => [Err e]
    | Ok data =>
      match format with
      | in_slf => [read_slf parse_int parse_float nlog data]           (* 85 *)
      | in_kaldi => map (fun lines => read_kaldi parse_int parse_float lines id_to_word)
                        (kaldi_archive (file_lines data) [])           (* 87-104 *)
      end
    end) paths.

(** decode.py 236-237 *)
Definition named (number : nat) (a : lattice) : lattice :=
  match a_utterance a with
  | Some _ => a
  | None => mkLattice (a_nodes a) (a_links a) (a_initial a) (Some (show_int number))
                      (a_lm_scale a) (a_wi_penalty a)
  end.

Definition space : pystr := str " ".

(** decode.py 268-312, format_token(). The formats "slf" and "kaldi" are not given to
    it (311 would raise NameError, since args is not defined there). *)
Definition format_token (t : token state) (utterance_id : pystr) (scale : Qc) (format : output_format) : result pystr :=
  do words <- history_words state v t;                                 (* 297 *)
  match format with
  | out_ref => Ok (utterance_id ++ space ++ join space words)          (* 299 *)
  | out_trn => Ok (join space words ++ str " (" ++ utterance_id ++ str ")") (* 301 *)
  | out_full => Ok (utterance_id ++ space ++ show_num (tk_ac _ t / scale)%Qc ++ space
                    ++ show_num (tk_graph _ t / scale)%Qc ++ space
                    ++ show_num (tk_total _ t / scale)%Qc ++ space
                    ++ show_int (length words) ++ space ++ join space words) (* 303-309 *)
  | _ => Err RuntimeError
  end.

(** decode.py 259-265: the strings that are written, and the exception that stops it *)
Fixpoint write_tokens (c : arguments) (utterance_id : pystr) (tokens : list (token state))
  : list pystr * option exn :=
  match tokens with
  | [] => ([], None)
  | t :: rest =>
    match format_token t utterance_id (log_scale c) (c_output c) with
    | Err e => ([], Some e)
    | Ok line => let '(written, e) := write_tokens c utterance_id rest in
                 ((line ++ [newline]) :: written, e)
    end
  end.

(** decode.py 250-251 *)
Definition with_scales (c : arguments) (a : lattice) : lattice :=
  mkLattice (a_nodes a) (a_links a) (a_initial a) (a_utterance a) (c_lm_scale c) (c_wi_penalty c).

(** decode.py 244-265, one lattice. A lattice is written as one string; what has been
    written of it when write_kaldi() raises an exception is not modelled. *)
Definition process_lattice (c : arguments) (word_to_id : dict pystr Z) (a : lattice) : list pystr * option exn :=
  match decode state initial_state net_step ln lin hash v (decoding_options c) a with
  | Err e => ([], Some e)
  | Ok (final_tokens, recomb_tokens) =>
    match c_output c with
    | out_slf =>
      match rescored_lattice state v a final_tokens recomb_tokens with
      | Err e => ([], Some e)
      | Ok r => ([write_slf show_num (with_scales c r)], None)         (* 253 *)
      end
    | out_kaldi =>
      match (do r <- rescored_lattice state v a final_tokens recomb_tokens;
             write_kaldi show_num show_z word_to_id (with_scales c r)) with (* 256 *)
      | Err e => ([], Some e)
      | Ok text => ([text], None)
      end
    | _ => write_tokens c (match a_utterance a with Some u => u | None => [] end)
                        (slice_to final_tokens (Z.min (c_n_best c) (Z.of_nat (length final_tokens)))) (* 259 *)
    end
  end.

(** decode.py 235-266, the loop over the lattices *)
Fixpoint run_lattices (c : arguments) (word_to_id : dict pystr Z) (number : nat) (lattices : list (result lattice))
  : list pystr * status :=
  match lattices with
  | [] => ([], finished)
  | Err e :: _ => ([], raised e)
  | Ok a :: rest =>
    match process_lattice c word_to_id (named number a) with
    | (written, Some e) => (written, raised e)
    | (written, None) => let '(more, st) := run_lattices c word_to_id (S number) rest in (written ++ more, st)
    end
  end.

(** decode.py 192-266: the strings that are written to the output file, and how the
    command ends. Reading the model (198-200) is modelled in SavedModel. What the
    constructor of the decoder looks up (231) is looked up in [decode]. *)
Definition decode_command (c : arguments) : list pystr * status :=
  match c_kaldi_vocabulary c, c_format c, c_output c with
  | None, in_kaldi, _ | None, _, out_kaldi => ([], exited)             (* 192-195 *)
  | _, _, _ =>
    match (do '(word_to_id, id_to_word) <- batch_vocabulary c;
           do paths <- job_lattices (c_lattices c) (c_lattice_list c) (c_num_jobs c) (c_job c);
           Ok (word_to_id, batch_lattices (c_format c) id_to_word paths)) with (* 233 *)
    | Err e => ([], raised e)
    | Ok (word_to_id, lattices) => run_lattices c word_to_id 0 lattices
    end
  end.

End Command.
