# Formal model of theanolm in Rocq (Coq 8.16.1)

The subject is the Python source in /repo (senarvi/theanolm, pinned). It is read
as text and never run. The model lives in `rocq/theories`, the properties in
`properties.jsonl`, the map from properties to theorems in `MANIFEST.json`, and
the record of deliberately broken models in `seeded/LOG.jsonl`.

## Layout

For each subsystem `X`:

* `XModel.v`: executable Gallina functions, one per Python function, each with a
  comment that cites file and lines. No proofs.
* `XSpec.v`: a small specification that does not use the helpers of the model.
* `XProofs.v` and other names: lemmas.
* `XProps.v`: the property theorems, each with `Print Assumptions` under it, and
  `Example`s which show that concrete cases meet the hypotheses.

`Base.v` defines exceptions and results, `Strings.v` the Python string methods,
`Dict.v` Python dictionaries, `NumStr.v` decimal numerals, `*Lib.v` list, number
and monad lemmas.

## Modelling conventions

* Python exceptions are values: a function that may raise returns `result A`
  (`Ok a` or `Err e`). Indexing never uses a default that hides an IndexError
  unless the guard is proved. Negative indices count from the end, as in Python.
* A string is the list of its code points (`pystr = list N`). Words are strings.
  A text file is its contents or the list of its lines.
* Floats are exact numbers: canonical rationals `Qc` for probabilities and
  scores, real numbers `R` where logarithms, exponentials or roots matter, or
  any type with the operations of the record `arith` in the network models.
  Rounding and overflow are not modelled. Infinities and NaN that arise from the
  code's own formulas (0 * log 0, 0 / 0, log 0) are modelled where a property
  speaks about them (scoring, cost, class optimization); the decoder model
  raises `NumberError` at that point instead.
* What the program obtains from outside is an argument (an "oracle") that the
  theorems quantify over. See "Oracles" below. There are no axioms for them.
* Loops are folds, structural recursion or fuel. Where fuel is used it is proved
  to be sufficient.
* Python objects that are mutated are records that are returned. Aliasing is
  modelled only where it is observable (the class statistics of the bigram
  optimizer).
* If what a user would expect is false of the code, the property states the
  exact behaviour, and a theorem with the suffix `_refuted` gives a
  counterexample to the expectation.

## Properties

The statement of each property is in `properties.jsonl`; this table says what is
modelled for it, how it is proved and which theorems state it.

### C01 Utterance framing (proved)

* Model: `utterance_from_line` with `rstrip`, `strip` and `split` of Python on code point lists (TextModel, Strings).
* Proof: case analysis on the token list; the tokens of a line are specified by a relation that is proved functional.
* Theorems (`TextProps.v`): `C01_utterance_framing`, `C01_utterance_exact`, `C01_tokens_unique`, `C01_framing_unique`, `C01_utterance_idempotent`.
* Scope: For every line; exact characterisation of the result, uniqueness of the specification and idempotence.

### C02 Sentence index is exactly the line starts (proved)

* Model: `find_sentence_starts` and `readline` after `seek` (TextModel).
* Proof: induction over the contents, against an independent relation "these are the lines of the file".
* Theorems (`TextProps.v`): `C02_sentence_starts_exact`, `C02_readlines_at_starts`, `C02_lines_exist`, `C02_lines_unique`.
* Scope: For every file content.

### C03 An epoch reads every sentence once, in order (proved)

* Model: `BatchIterator.__next__`, `_read_sequence`, `_readline`, `_reset` of the linear iterator as a state machine (IterModel).
* Proof: invariant: the sequences that remain to be read; induction over them, for any number of epochs.
* Theorems (`IterProps.v`): `C03_linear_epochs`, `C03_batches_concat`, `C03_lines_exist`, `C03_sequences_exist`, `C03_sequences_unique`.
* Scope: Linear iterator, any number of epochs, any number of files.

### C04 Mini-batch sizes and iterator length (proved)

* Model: the same machine and `__len__`.
* Proof: corollary of the decomposition of C03 into batches.
* Theorems (`IterProps.v`): `C04_batch_sizes`, `C04_shuffling_sizes`, `C04_len_mid_epoch_rewinds`.
* Scope: For freshly created iterators, as the property says; C04_len_mid_epoch_rewinds shows that len() in mid-epoch rewinds the iterator (outside the property).

### C05 Mini-batch matrices encode the sequences (proved)

* Model: `_prepare_batch` (IterModel) with the vocabulary lookups of VocabModel.
* Proof: cell by cell characterisation of the three matrices.
* Theorems (`IterProps.v`): `C05_matrices`, `C05_total`, `C05_ids_in_vocabulary`, `C05_ids_in_shortlist`, `C05_decodable`, `C05_file_ids_small`, `C05_file_ids_wrap`.
* Scope: C05_file_ids_wrap records that the separate file ID matrix is stored as int8 and wraps from file 128 on; the property speaks about word IDs and mask.

### C06 What cutting long sentences presents (proved)

* Model: the cutting loop of `_read_sequence`.
* Proof: exact set of presented tokens by induction over the pieces; the naive claim is refuted.
* Theorems (`IterProps.v`): `C06_presented_tokens`, `C06_uncut`, `C06_cutting_loses_token_refuted`, `C06_length_one_refuted`, `C06_length_zero_refuted`.
* Scope: Exact claim proved for every line; the expectation that nothing is lost is refuted: a piece of one token is dropped, so </s> is lost when length mod max = 1; exact set of presented tokens proved. Max length 1 presents nothing, 0 never returns.

### C07 A shuffled epoch is a permutation of the corpus (proved)

* Model: `SentencePointers`, `_reset` of the shuffling iterator with numpy.random as an oracle.
* Proof: the order array stays a permutation; composition with C02.
* Theorems (`IterProps.v`): `C07_shuffled_epochs_permute`, `C07_sampled_epochs`, `C07_init_total`.
* Scope: Under the contracts of numpy.random.choice and shuffle stated in IterSpec.v.

### C08 Saved data position resumes the epoch (proved)

* Model: `get_state`, `set_state` of both iterators.
* Proof: simulation of the two runs; counterexample for a sentence that is being cut.
* Theorems (`IterProps.v`): `C08_resume_exact`, `C08_uncut_always_exact`, `C08_resume_misses_current_sentence`, `C08_state_accepted`, `C08_resume_mid_sentence_refuted`.
* Scope: Exact claim proved; exact resumption is refuted when a sentence is being cut at the time of saving (the buffer is not saved); proved exactly which sequences are missed, and exact resumption when nothing is buffered, in particular without a maximum length.

### C09 Word and ID maps are inverse (proved)

* Model: `Vocabulary.__init__`, `from_file`, `from_word_counts`, `from_state`, `get_state`, `set_state` (VocabModel).
* Proof: invariant of an inductively defined set of reachable vocabularies.
* Theorems (`VocabProps.v`): `C09_inverse_maps`, `C09_special_tokens_present`, `C09_words_to_ids`, `C09_file_layout`, `C09_file_accepted`.
* Scope: Every vocabulary built from a file or counts and then updated, saved and loaded any number of times; the layout and the exact condition for a file to be accepted are proved too.

### C10 Classes partition the shortlist (proved)

* Model: word class construction of the same constructors.
* Proof: the same invariant; partition stated by membership and uniqueness.
* Theorems (`VocabProps.v`): `C10_partition`, `C10_class_shape`, `C10_file_classes`, `C10_special_own_class`, `C10_normal_classes`, `C10_class_membership`.
* Scope: Partition for every reachable vocabulary; the classes of a file vocabulary are those the file names.

### C11 Class membership probabilities are distributions (proved)

* Model: `WordClass.add`, `normalize_probs`, `Vocabulary` with class weights and with counts.
* Proof: sums over `Qc`.
* Theorems (`VocabProps.v`): `C11_file_distributions`, `C11_file_values`, `C11_recomputed`, `C11_unigram_probs`.
* Scope: Values given exactly. For files the weights have to be non-negative to give a distribution (the sum is 1 in any case). Exact rationals.

### C12 Frequency classes are balanced and complete (proved)

* Model: class assignment by descending frequency in `from_word_counts`.
* Proof: arithmetic of the cut points; sizes differ by at most one.
* Theorems (`VocabProps.v`): `C12_frequency_classes`, `C12_zero_classes`.
* Scope: For one or more classes; zero classes raise ZeroDivisionError (C12_zero_classes).

### C13 Out-of-shortlist probabilities complete the distribution (proved)

* Model: `compute_probs`, `get_oos_probs`.
* Proof: sums over `Qc`.
* Theorems (`VocabProps.v`): `C13_oos_weights`, `C13_completes_distribution`, `C13_zero_mass_undefined`.
* Scope: If some out-of-shortlist word has been counted; otherwise the code divides by zero (C13_zero_mass_undefined).

### C14 Vocabulary survives saving and loading (proved)

* Model: `get_state` / `from_state` on a model of the HDF5 groups.
* Proof: round trip; the stale data set is exhibited.
* Theorems (`VocabProps.v`): `C14_state_round_trip`, `C14_saving_succeeds`, `C14_stale_unigrams_survive`.
* Scope: Saving into a new state, and over an old state unless it holds unigram probabilities that the saved vocabulary lacks: those survive (C14_stale_unigrams_survive).

### C15 Corpus statistics count occurrences (proved)

* Model: `compute_word_counts`, `UnigramStatistics`/`BigramStatistics`.
* Proof: induction over the corpus.
* Theorems (`VocabProps.v`): `C15_word_counts`, `C15_utterances_exist`, `C15_bigram_statistics`, `C15_row_column_sums`.
* Scope: Counts are unbounded integers.

### C16 Merging subwords conserves the score (proved)

* Model: `_merge_subwords` (ScoreModel) as the automaton of textscorer.py.
* Proof: loop invariant; exact loss at word boundaries; refutation of unconditional conservation.
* Theorems (`ScoreProps.v`): `C16_merging`, `C16_invalid_arguments`, `C16_one_score_for_each_word`, `C16_affix_tokens`, `C16_affix_total`, `C16_boundary_tokens`, `C16_boundary_total`, `C16_boundary_loss`, `C16_reported_total`, `C16_boundary_refuted`.
* Scope: For every token sequence; exact loss of word-boundary merging proved, unconditional conservation refuted.

### C17 Perplexity totals are additive (proved)

* Model: `compute_perplexity`, `score_batch`, `score.py` totals.
* Proof: sums over lists, for any batching.
* Theorems (`ScoreProps.v`): `C17_batch_scores`, `C17_scores_unique`, `C17_score_text`, `C17_cross_entropy`, `C17_infinite_scores_fail`, `C17_no_probability_fails`.
* Scope: For any network whose output for a sequence does not depend on the rest of the mini-batch (batch_independent, see C44). Logarithm and network are parameters; exact numbers plus -inf and NaN.

### C18 Unknown-word policy (proved)

* Model: `_handle_unk_logprobs` of the text scorer.
* Proof: case analysis on every word and policy.
* Theorems (`ScoreProps.v`): `C18_excluded_words`, `C18_other_words_unaffected`, `C18_policies`.
* Scope: Text scorer. The decoder options are a separate property.

### C19 Line-by-line scoring agrees with batch scoring (proved)

* Model: `score_line` and `_score_text`.
* Proof: reduction of both to the same list of log probabilities; refutation for out-of-shortlist words.
* Theorems (`ScoreProps.v`): `C19_line_score`, `C19_blank_line`, `C19_oos_line_fails`, `C19_utterances`, `C19_line_score_refuted`.
* Scope: Exact claim for every line; agreement for lines with out-of-shortlist words refuted (IndexError).

### C20 Lattice nodes are processed in topological order (proved)

* Model: `sorted_nodes` (LatticeModel): Kahn's algorithm with time priority.
* Proof: invariant of the loop.
* Theorems (`LatticeProps.v`): `C20_topological_order`, `C20_acyclic_complete`.
* Scope: Every lattice that is internally consistent (lattice_ok); C24_read_consistent proves that for lattices read from SLF files and C25 for lattices read from Kaldi archives.

### C21 Cyclic lattices are never ordered completely (proved)

* Model: the same.
* Proof: counting argument; exact condition of the exception.
* Theorems (`LatticeProps.v`): `C21_error_condition`, `C21_complete_order_acyclic`, `C21_cycle_rejected_refuted`.
* Scope: Exact condition for the error; rejection of every reachable cycle refuted: unless the cycle goes through the initial node, only a warning about unreachable nodes is given and the order is truncated.

### C22 Jobs partition the lattices (proved)

* Model: `_split` of the jobs in `LatticeBatch`.
* Proof: induction over slices.
* Theorems (`LatticeProps.v`): `C22_job_contents`, `C22_partition`, `C22_sizes`, `C22_invalid_job`.
* Scope: For every list and number of jobs.

### C23 A lattice archive is cut at blank lines (proved)

* Model: Kaldi archive reading in `LatticeBatch`.
* Proof: inductive specification, proved functional.
* Theorems (`LatticeProps.v`): `C23_archive_blocks`, `C23_every_archive`.
* Scope: The specification is an inductive relation; it holds for exactly one list of blocks. Universal newlines are not modelled.

### C24 SLF lattices survive writing and reading (proved)

* Model: SLF writer and reader (SlfModel): characters, shlex fields, node and link lines.
* Proof: round trip on characters.
* Theorems (`LatticeProps.v`): `C24_slf_round_trip`, `C24_read_consistent`, `C24_unconditional_refuted`.
* Scope: number_text states what is assumed about int(), float() and str(); met by a concrete syntax in LatticeExamples.v. Finite scores only.

### C25 Kaldi lattices survive writing and reading (proved)

* Model: Kaldi writer and reader (KaldiModel).
* Proof: round trip on characters.
* Theorems (`LatticeProps.v`): `C25_kaldi_round_trip`, `C25_final_word_lost_refuted`, `C25_id_gap_refuted`.
* Scope: As C24; vocabulary IDs have to be below the number of words (C25_id_gap_refuted).

### C26 A decoded hypothesis is a lattice path with its true score (proved)

* Model: `LatticeDecoder.decode`, `_propagate`, `_append_word`, `Token`.
* Proof: invariant: each token is a path of the lattice with its score.
* Theorems (`DecoderProps.v`): `C26_hypotheses_are_paths`, `C26_scores_of_a_path`.
* Scope: For every lattice that is internally consistent and any network that treats the sequences of a batch independently. Infinite scores raise NumberError in the model (in the code they stay -inf). Exact rationals; linear interpolation is a parameter.

### C27 Decoding without pruning finds the best path (proved)

* Model: the same without pruning.
* Proof: optimality by induction over the topological order.
* Theorems (`DecoderProps.v`): `C27_no_word_sequence_is_lost`, `C27_first_token_is_best`.
* Scope: Log-linear interpolation only: with linear interpolation dropping a hypothesis with the same history is not lossless.

### C28 Recombination keeps the best hypothesis of each history (proved)

* Model: `Token` recombination in `decode`.
* Proof: stable sort and first occurrence; any hash function.
* Theorems (`DecoderProps.v`): `C28_recombination`, `C28_decoded_tokens`.
* Scope: sorted() is modelled as a stable sort; the hash is an arbitrary function.

### C29 Pruning never loses the best hypothesis (proved)

* Model: `_prune`.
* Proof: case analysis; refutation when the divided limit is zero.
* Theorems (`DecoderProps.v`): `C29_pruning`, `C29_best_recorded`, `C29_decoding_succeeds`, `C29_divided_limit_refuted`.
* Scope: Exact claim; the best token can be lost when the token limit is divided to zero (C29_divided_limit_refuted).

### C30 Rescored lattice holds the surviving hypotheses (proved)

* Model: `RescoredLattice` (RescoredModel).
* Proof: induction over token histories; both inclusions of the set of paths, and refutation for null links.
* Theorems (`RescoredProps.v`): `C30_paths_kept`, `C30_links`, `C30_no_new_word_sequences`, `C30_rescoring_succeeds`, `C30_null_links_refuted`.
* Scope: Exact claim. Recombination after null links can add word sequences that the original lattice does not have (C30_null_links_refuted); scores of null links after the last word are lost, which C30_paths_kept states.

### C31 Decoder and text scorer give a sentence the same network score (proved)

* Model: decoder score against text scorer score.
* Proof: equality of the two sums for the same network; exact difference for word classes.
* Theorems (`AgreeProps.v`): `C31_words`, `C31_totals`, `C31_decoded`, `C31_same_total`, `C31_own_class`, `C31_incomplete_hypotheses_refuted`, `C31_class_of_sentence_end_refuted`.
* Scope: The network is a parameter of both models; same_network says that it is the same network in both. Logarithms of probabilities are a parameter.

### C32 Validation happens as often as requested (proved)

* Model: `Trainer.train` loop and `_is_scheduled` (TrainerModel).
* Proof: division arithmetic and induction over updates.
* Theorems (`TrainerProps.v`): `C32_schedule`, `C32_saved_refuted`.
* Scope: Exact claim; C32_saved_refuted shows a run in which validation is requested and no model is saved.

### C33 The kept model is the best so far (proved)

* Model: `_validate`, `_set_candidate_state`, `_reset_state`.
* Proof: invariant of every reachable trainer state.
* Theorems (`TrainerProps.v`): `C33_best`, `C33_saved_state`, `C33_validation`, `C33_no_exception`.
* Scope: For every network update, perplexity, iterator and options; perplexities are assumed positive. The cost statistic is the median, which is the only one the trainer computes.

### C34 Annealing follows the patience rule (proved)

* Model: `_validate` with patience.
* Proof: step lemma for every history.
* Theorems (`TrainerProps.v`): `C34_annealing`.
* Scope: Every history of validation costs.

### C35 Training stops when the stopping rule says so (proved)

* Model: stoppers.
* Proof: well-founded measure; endless run as a counterexample.
* Theorems (`TrainerProps.v`): `C35_stops`, `C35_epoch`, `C35_terminates`, `C35_max_epochs_refuted`.
* Scope: Exact claim; C35_max_epochs_refuted gives an endless run. Perplexities are assumed to be at least one for termination.

### C36 Training resumes from the saved state (proved)

* Model: `get_state`, `initialize` with an initial state.
* Proof: simulation between the resumed and the uninterrupted run.
* Theorems (`TrainerProps.v`): `C36_resume`, `C36_restore`, `C36_incompatible`, `C36_repeated_epoch_refuted`, `C36_learning_rate_refuted`.
* Scope: Exact claim for resuming at a validation point; C36_repeated_epoch_refuted and C36_learning_rate_refuted are the false expectations.

### C37 Parameter state round trip (proved)

* Model: `Parameters` and its HDF5 state (ParamModel).
* Proof: finite map laws.
* Theorems (`ParamProps.v`): `C37_add`, `C37_save`, `C37_restore`, `C37_round_trip`, `C37_failed_restore_refuted`, `C37_failed_network_restore`, `C37_size_refuted`, `C37_save_again_refuted`, `C37_save_again`.
* Scope: Exact claim; C37_failed_restore_refuted, C37_size_refuted and C37_save_again_refuted are the false expectations.

### C38 Gradient normalisation bounds the update (proved)

* Model: `BasicOptimizer._normalize`.
* Proof: inequalities over `R`.
* Theorems (`OptimizerProps.v`): `C38_norm`, `C38_unchanged_refuted`, `C38_step`, `C38_momentum`.
* Scope: Over the real numbers (standard library axioms of the reals), for every history.

### C39 Optimizers update their accumulators and weight the data (proved)

* Model: all seven optimizers, `_get_weights` (OptimizerModel).
* Proof: induction over the history of updates.
* Theorems (`OptimizerProps.v`): `C39_total`, `C39_initial`, `C39_sgd`, `C39_nesterov`, `C39_adagrad`, `C39_adadelta`, `C39_rmsprop_sgd`, `C39_rmsprop_nesterov`, `C39_adam`, `C39_history`, `C39_adam_bias`, `C39_weights`, `C39_weights_refuted`, `C39_mean_square_refuted`.
* Scope: Over the real numbers; C39_weights_refuted and C39_mean_square_refuted are the false expectations. The published rule of RMSProp with Nesterov momentum is the one with the accumulator left out of the update.

### C40 Training cost ignores padding (proved)

* Model: `CrossEntropyCost`, NCE and BlackOut cost, `Cost.get_tensor` (CostModel).
* Proof: congruence over masked sums, over reals with infinities and NaN.
* Theorems (`CostProps.v`): `C40_cost`, `C40_cost_exists`, `C40_padding`, `C40_cross_entropy`, `C40_lower_bound`, `C40_padding_refuted`, `C40_nothing_counted_refuted`.
* Scope: Exact claim over the reals extended with infinities and NaN; C40_padding_refuted and C40_nothing_counted_refuted are the false expectations.

### C41 Class statistics stay exact under moves (proved)

* Model: numpy and Theano bigram optimizers (BigramModel).
* Proof: incremental counts equal counts from scratch.
* Theorems (`BigramProps.v`): `C41_create`, `C41_moves`, `C41_move_succeeds`, `C41_probs`.
* Scope: Both implementations, any sequence of moves.

### C42 Evaluated gain equals the change of the log likelihood (proved)

* Model: `_evaluate`, `_log_likelihood` of both.
* Proof: algebra of x log x.
* Theorems (`BigramProps.v`): `C42_log_likelihood`, `C42_gain`.
* Scope: Exact claim: numeric states when the gain is a number for each implementation. The masked sum is that of numpy.ma.

### C43 Class optimization is monotone and terminates (proved)

* Model: `move_to_best_class` and the loop of wctool.
* Proof: the likelihood strictly increases over a finite set of partitions.
* Theorems (`BigramProps.v`): `C43_step`, `C43_result`, `C43_terminates`, `C43_local_optimum_refuted`.
* Scope: Exact claim; C43_local_optimum_refuted is the false expectation. Logarithms are exact real numbers.

### C44 A sequence's score does not depend on its mini-batch (proved)

* Model: all layers of NetModel over an abstract arithmetic.
* Proof: column lemmas by induction over time; counterexample over `R`.
* Theorems (`NetProps.v`): `C44_sequence_alone`, `C44_any_batch`, `C44_other_sequences`, `C44_bidirectional_padding_refuted`.
* Scope: Every network architecture of the modelled layers, any arithmetic. C44_bidirectional_padding_refuted (real numbers) is the false expectation for bidirectional layers.

### C45 Predictions do not look at the future (proved)

* Model: the same.
* Proof: induction over time; counterexample over `R`.
* Theorems (`NetProps.v`): `C45_only_the_past`, `C45_not_the_predicted_word`, `C45_stacked_layers_refuted`.
* Scope: Exact claim; C45_stacked_layers_refuted (real numbers) is the false expectation.

### C46 Stepwise evaluation equals mini-batch evaluation (proved)

* Model: the same in step mode.
* Proof: simulation between `scan` and repeated steps.
* Theorems (`NetProps.v`): `C46_stepwise`, `C46_refused`.
* Scope: Every network, any arithmetic.

### C47 Splitting a layer to devices does not change it (proved)

* Model: parameters per device, `_tensor_preact`, `_tensor_conv1d` (DeviceModel).
* Proof: concatenation of column blocks.
* Theorems (`DeviceProps.v`): `C47_split`, `C47_parts`, `C47_same_output`, `C47_softmax_one_named_device_refuted`, `C47_hsoftmax_named_devices_refuted`, `C47_glu_named_devices_refuted`.
* Scope: Every list of layers, every assignment of devices, any arithmetic.

### C48 Hierarchical softmax factorisation fits (proved)

* Model: hierarchical softmax level sizes and target class indices (OutputModel).
* Proof: integer square root arithmetic.
* Theorems (`OutputProps.v`): `C48_levels`, `C48_target_probability`, `C48_target_probability_step`.
* Scope: Level sizes with an exact square root (floats are not modelled). Target probabilities for every network and any arithmetic.

### C49 Recurrent state batching (proved)

* Model: `RecurrentState` (StateModel).
* Proof: list slicing; connection with the network step.
* Theorems (`StateProps.v`): `C49_initial_state`, `C49_set`, `C49_combine`, `C49_combine_nothing`, `C49_extract`, `C49_parallel_steps`.
* Scope: Every list of states and every network; elements of any type.

### C50 Architecture survives saving and loading (proved)

* Model: `Architecture.get_state`, `from_state`, `check_state` (ArchModel).
* Proof: round trip of trees of attributes; refutation above ten entries.
* Theorems (`ArchProps.v`): `C50_save_again`, `C50_load`, `C50_load_same`, `C50_more_than_ten`, `C50_check_exact`, `C50_check_same_shape`, `C50_check_errors`, `C50_eleven_inputs_refuted`, `C50_different_architecture_refuted`.
* Scope: Attributes hold strings and integers; HDF5 iteration order does not matter.

### C51 Generated text has the requested shape (proved)

* Model: `TextSampler.generate`, `sample.py` (SamplerModel).
* Proof: induction over steps for every outcome of the draws.
* Theorems (`SamplerProps.v`): `C51_shape`, `C51_drawn`, `C51_words_and_classes`, `C51_own_history`, `C51_succeeds`, `C51_unknown_seed`, `C51_no_room_for_seed`, `C51_prints`, `C51_requested_length_refuted`.
* Scope: The network and the random number generators are parameters: the theorems hold for every outcome of the draws. C51_own_history instantiates the network with the model of NetModel.

### C52 Class unigram distribution (proved)

* Model: `get_class_probs`.
* Proof: sums over the members.
* Theorems (`VocabProps.v`): `C52_class_probs`.
* Scope: Exact rationals.

### C53 Word score report (proved)

* Model: `score.py` word score report.
* Proof: exact list of entries.
* Theorems (`ScoreProps.v`): `C53_word_scores`, `C53_text_reports`.
* Scope: The entries are modelled as records; the printed lines are the subject of C77.

### C54 Words on SLF nodes are moved to links (proved)

* Model: `Lattice._move_words_to_links`.
* Proof: invariant over the traversal.
* Theorems (`LatticeProps.v`): `C54_node_words`.
* Scope: For the traversal as the code does it; the recursion limit of Python is not modelled.

### C55 SLF lattice contents (proved)

* Model: `SLFLattice.__init__`.
* Proof: relation between the lines of the file and the contents of the lattice.
* Theorems (`FormatProps.v`): `C55_slf_contents`.
* Scope: For every file that can be read. The tokens of a line are those of shlex (modelled).

### C56 Kaldi lattice reading (proved)

* Model: `KaldiLattice.__init__`.
* Proof: exact condition of success and contents.
* Theorems (`FormatProps.v`): `C56_kaldi_read_succeeds`, `C56_kaldi_vocabulary`.
* Scope: Exact condition for files without negative state numbers.

### C57 Sampling-based training objectives (proved)

* Model: NCE and BlackOut objectives.
* Proof: calculus of logistic functions over `R`.
* Theorems (`NoiseProps.v`): `C57_nce`, `C57_nce_negative`, `C57_nce_target`, `C57_nce_sample`, `C57_blackout`, `C57_blackout_zero_refuted`.
* Scope: C57_blackout_zero_refuted is the false expectation. Over the real numbers.

### C58 Word statistics and the saving schedule of wctool (proved)

* Model: `wctool` loop.
* Proof: word statistics and schedule.
* Theorems (`BigramProps.v`): `C58_statistics`, `C58_schedule`.
* Scope: Every corpus, size and frequency.

### C59 The output of a network is a distribution (proved)

* Model: softmax and hierarchical softmax output layers.
* Proof: sums over `R`; counterexamples.
* Theorems (`OutputProps.v`): `C59_softmax_distribution`, `C59_hsoftmax_distribution`, `C59_hsoftmax_sum_refuted`, `C59_hsoftmax_exclude_unk_refuted`.
* Scope: Real numbers. The refuted theorems are the false expectations for hierarchical softmax.

### C60 Architecture description files (proved)

* Model: `Architecture.from_description`.
* Proof: relation between lines and contents; exact exceptions.
* Theorems (`ArchProps.v`): `C60_reads`, `C60_accepts`, `C60_errors`, `C60_attribute_error`.
* Scope: Python integer syntax is a parameter. Files whose layer lines have a field called inputs or devices are covered only by the theorem about exceptions.

### C61 Networks built from a description compute arrays of the right dimensions (proved)

* Model: `Network.__init__` and layer constructors (BuildModel).
* Proof: parameters have the dimensions that the layer equations use; every evaluated array has the declared dimensions.
* Theorems (`BuildProps.v`): `C61_evaluates`, `C61_otherwise`, `C61_steps`, `C61_parameters`, `C61_default_device_refuted`.
* Scope: Initial parameter values are arbitrary; descriptions with two layers of the same name or with an output layer that is not the last one are not modelled.

### C62 Scoring and decoding may use any unidirectional network (proved)

* Model: a network built from a description as the oracle of scoring and decoding (LinkModel).
* Proof: composition of C44, C46, C49, C61 with C17, C26, C31.
* Theorems (`LinkProps.v`): `C62_scoring_network`, `C62_scoring_computes`, `C62_decoding_network`, `C62_same_network`, `C62_scored_text`, `C62_decoded_total`.
* Scope: Rational numbers with arbitrary exponential and activation functions. This discharges, for networks of NetModel, the hypotheses about the network in C16-C19 and C26-C31.

### C63 The network of a description computes the equations of its layers (proved)

* Model: building (BuildModel) and evaluating (NetModel) a network, against per-unit equations (EquationSpec) and the meaning of a description (DescribedSpec).
* Proof: every array is a tabulation of a function of time step, sequence and unit; each operation maps tabulations to tabulations; induction over the layers, and over the time steps for recurrent layers.
* Theorems (`EquationProps.v`): `C63_probabilities`, `C63_described`.
* Scope: EquationSpec.v gives the equations per unit, time step and sequence, DescribedSpec.v what a description says. Sums are in the order of the model, so no law of arithmetic is used. The limits of the modelled descriptions are those of C61.

### C64 A saved language model is loaded as it was (proved)

* Model: a model file (SavedModel): vocabulary state, architecture state and arrays, with Network.get_state, set_state and from_file over the network of BuildModel, including the changes that NetworkInput makes to the architecture.
* Proof: arrays of a parameter round trip; a network built again from equal options differs only in parameter values (simulation of the whole construction); parameter paths are distinct when names have no slash; induction over the saves.
* Theorems (`SavedProps.v`): `C64_load`, `C64_same_probabilities`, `C64_never_different`, `C64_resume`, `C64_slash_refuted`, `C64_eleven_refuted`, `C64_default_device_refuted`.
* Scope: Composes the models of the vocabulary, architecture and parameter state with network construction. A file is the vocabulary state, the architecture state and a dictionary of arrays; the limits of the modelled descriptions are those of C61.

### C65 Noise sampling for the sampling-based training objectives (proved)

* Model: the sampling output layer, noise distributions and set_sampling (SamplingModel), over the networks of BuildModel and the objectives of CostModel; random numbers are arguments.
* Proof: the input of the output layer is the tabulation that C63 gives; each way of indexing weights by class IDs maps it to scores; inverse cumulative distributions for uniform and log-uniform noise, over the reals; the objectives by composition with C57.
* Theorems (`SamplingProps.v`): `C65_scores`, `C65_noise`, `C65_unsupported_noise`, `C65_unsupported_scores`, `C65_normalized`, `C65_uniform`, `C65_log_uniform`, `C65_distribution`, `C65_unigram`, `C65_draws`, `C65_distinct`, `C65_repeats_refuted`, `C65_nce`, `C65_blackout`, `C65_sequence_sharing_refuted`, `C65_unsupported`.
* Scope: Random numbers are arguments; drawing without replacement by Theano is specified by draws_without_replacement (SamplingSpec.v). Rounding of floating point numbers is not modelled. SamplingExamples.v has the concrete cases.

### C66 Which architecture descriptions a network can be built from (proved)

* Model: the construction of networks (BuildModel, DeviceModel), against conditions on the options of the layers (AcceptSpec).
* Proof: each step of the construction succeeds if and only if the corresponding condition holds; parameter paths of a layer differ before either of them ends, so no suffix with a device name makes them equal; induction over the layers.
* Theorems (`AcceptProps.v`): `C66_accepted`, `C66_necessary`, `C66_network`, `C66_devices`.
* Scope: AcceptSpec.v states the conditions on the options. C66_necessary needs no assumption about the description. Descriptions with equal layer names or an output layer that is not the last one are not modelled (record ordinary). Arrays may be empty in the model.

### C67 The decode command writes the best hypotheses of every lattice of the job (proved)

* Model: the decode command (CommandModel): arguments, LatticeBatch iteration, ranking, line formatting, rescored output, over the models of the readers, the decoder and the writers.
* Proof: composition of C22-C31: the decoder theorems give the ranking, induction over the lattices of the job gives the output and where it stops, C22 the partition to jobs; the rescored lattice is consistent by an invariant of its construction (RescoredGraph), so the SLF round trip applies.
* Theorems (`CommandProps.v`): `C67_start`, `C67_lines`, `C67_fields`, `C67_prune_relative_ignored`, `C67_jobs`, `C67_kaldi_ids`, `C67_slf_output`, `C67_job_ids_refuted`, `C67_scales_refuted`.
* Scope: Composes the models of LatticeBatch, the lattice readers, the decoder, RescoredLattice and the writers. Reading the model file is C64. The network, printing of numbers and reading of files are parameters.

### C68 Training on the sentences of the training files (proved)

* Model: the trainer (TrainerModel) over the shuffling iterator (IterModel): `trainer_data` is the constructor, `data_next`, `data_save` and `data_restore` are the iterator as the trainer uses it (TrainDataModel).
* Proof: an invariant of the iterator in every reachable state of the trainer; a simulation theorem between two trainings whose iterators give the same mini-batches (TrainerSim) transfers C33 and C35 to it, and relates two processes with different random generators.
* Theorems (`TrainDataProps.v`): `C68_epochs`, `C68_no_exception`, `C68_terminates`, `C68_annealing`, `C68_never_saved`, `C68_resume`, `C68_skipped_refuted`, `C68_leftover_refuted`, `C68_sampling_refuted`, `C68_orders_refuted`.
* Scope: Composes the trainer model (C32-C36) with the shuffling iterator model (C03-C09). Exact claims; C68_skipped_refuted, C68_leftover_refuted, C68_sampling_refuted and C68_orders_refuted are the false expectations. The random generator is any that meets the contracts of choice and shuffle; the optimizer and the perplexity are parameters.

### C69 What any sequence of train commands leaves in the model file (proved)

* Model: the train command (TrainCommandModel): `_read_vocabulary`, the refused options, the weights, reading or building the network, the trainer and iterator states of the file, the training steps and the final report; `train_commands` runs a list of commands, each interrupted after any number of steps.
* Proof: an invariant of the file over a list of commands: the vocabulary state never changes once written, and either nothing else is there or the arrays fit the network that is built from it; inside one command an invariant of every reachable training state; C64 gives what loading returns.
* Theorems (`TrainCommandCasesProps.v`, `TrainCommandProps.v`): `C69_failed_command_refuted`, `C69_special_tokens`, `C69_end_of_sentence_refuted`, `C69_vocabulary`, `C69_refused`, `C69_weights`, `C69_old_file`, `C69_loaded`, `C69_saved`, `C69_continued`, `C69_started`, `C69_resumed`, `C69_report`.
* Scope: Composes the vocabulary (C10-C14), the trainer with its data (C32-C36, C68), network construction (C66) and the saved model (C64). Exact claims; C69_failed_command_refuted and C69_end_of_sentence_refuted are the false expectations. The optimizer update is any function that keeps the dimensions of the parameters; the perplexity is a parameter.

### C70 The score command confirms the perplexity that training reports (proved)

* Model: the validation of the train command (ValidationModel): the linear iterator over the validation file with the sequence length of the training, the text scorer with its options, `compute_perplexity`, and repeated validations with one iterator.
* Proof: the linear iterator theorems (C03) give the mini-batches, the scorer theorems (C15-C18) the contributions of each sentence, and both perplexities are the same function of the concatenated contributions; `build_realise` shows that any parameter values are the initial values of some network, so that theorems on new networks apply to trained ones; the invariant of C69 gives the network in the file.
* Theorems (`ValidationCasesProps.v`, `ValidationCommandProps.v`, `ValidationProps.v`): `C70_exclude_unk_refuted`, `C70_shortlist_refuted`, `C70_cut_refuted`, `C70_zero_probability_refuted`, `C70_any_values`, `C70_trained_network`, `C70_report`, `C70_validation`, `C70_validations`, `C70_score_confirms`, `C70_score_predicts`.
* Scope: Composes the train command (C69), the saved model (C64), the network (C62, C66) and the text scorer (C15-C18). Exact claims; C70_exclude_unk_refuted, C70_shortlist_refuted, C70_cut_refuted and C70_zero_probability_refuted are the false expectations. ln and exp are parameters; C70_report assumes that the perplexity used by the trainer is that of the modelled validation.

### C71 What killed and interrupted train commands leave in the model file (proved)

* Model: the write operations of a save, in place or by deleting and copying groups, on an image of the file that is flushed to the disk at the end of a save or when the file is closed (CrashModel); a command that is killed or interrupted after any number of steps and of write operations.
* Proof: every prefix of the write operations has a closed form (CrashProofs); the files of a history are those without a training state, those with a complete one, and those where starting must fail, and every event keeps this (CrashRuns); the mixture of parameters is the network whose arrays are those of the file.
* Theorems (`CrashCasesProps.v`, `CrashProps.v`): `C71_interrupt_loses_model_refuted`, `C71_interrupt_starts_over_refuted`, `C71_interrupt_mixes_refuted`, `C71_stops`, `C71_complete`, `C71_killed`, `C71_killed_history`, `C71_history`, `C71_stuck`, `C71_interrupted_copy`, `C71_interrupted_write`.
* Scope: Extends C69 with the write operations of a save and the file in memory (HDF5 core driver, flushed at the end of a save). Exact claims; C71_interrupt_loses_model_refuted, C71_interrupt_starts_over_refuted and C71_interrupt_mixes_refuted are the false expectations. One h5py call happens or does not happen; an interrupt while the vocabulary is written and a crash while the image is written to the disk are not modelled.

### C72 Reading the class file that wctool writes (proved)

* Model: wctool from its arguments to the text of the output file (WctoolModel): the vocabulary, the corpus of word IDs, the optimization with the scheduled saves, rewinding and truncating, the lines of both formats.
* Proof: the lines of a save are split back into their fields, so the read entries are those of the written rows (WctoolRead); the counts of the optimizer are those of the training data (C41) and give the class weights; the optimizer keeps every class non-empty (C42), so the numbering of classes at reading is a renaming.
* Theorems (`WctoolProps.v`): `C72_written_probability`, `C72_runs`, `C72_read_classes`, `C72_read_srilm`, `C72_read_default`, `C72_stream`, `C72_train_fails`, `C72_default_options_refuted`.
* Scope: Composes wctool (C41-C43, C58), the vocabulary builders (C12) and the vocabulary file reader (C09). Exact claims; C72_default_options_refuted is the false expectation. The texts of numbers are parameters that are read back as the same number (number_text).

### C73 Generated text has the probability that scoring gives to it (proved)

* Model: SampleScoreSpec: the choices that make a generated sequence a given sentence, with their probabilities, over the sampler (SamplerModel), the network (NetModel) and the text scorer (ScoreModel).
* Proof: the sampler theorems (C51) say that each word is the one chosen from the distribution that the network gives after the words before; C61 relates the steps of many sequences to the steps of one, and C62 those to the mini-batch of the scorer; the sums by the partition of the shortlist to classes (C10) and induction on the length.
* Theorems (`SampleScoreProps.v`): `C73_generated`, `C73_word_scores`, `C73_total`, `C73_line`, `C73_next_word`, `C73_all_texts`, `C73_softmax`.
* Scope: Composes the text sampler (C51), the network evaluated step by step and as a mini-batch (C61, C62) and the text scorer (C15-C19). The random choices are parameters, one for every time step, sequence and list of probabilities; that they have these probabilities and are independent is the contract of the random number generators. ln is any function with the product law (an example is given). The lines agree for rational arithmetic.

### C74 All commands load the same network from a model file, and agree on the probability of a sentence (proved)

* Model: the files that killed and interrupted train commands leave (CrashModel, C71) and the score, decode and sample commands on the network that is loaded from them (ScoreModel, DecoderModel, SamplerModel, SavedModel).
* Proof: ModelFileProofs: every file of a history has an architecture that cannot be read or is that of the model, and arrays that are the first ones of some network of the model (a mixture of two networks is such a network); so a network of the model is loaded or none, and C70_any_values makes C62 and C73 applicable.
* Theorems (`ModelFileProps.v`): `C74_loaded`, `C74_always_or_never`, `C74_scored_text`, `C74_commands_agree`.
* Scope: Composes the histories of killed and interrupted commands (C71), loading (C64, C69), trained networks as built networks (C70) and the agreement of scoring with decoding (C62) and with sampling (C73). The commands are those of the models of the earlier properties, with the same default device. ln is any function with the product law; rational arithmetic. The membership probabilities of <s> and </s> are assumed equal and positive, as in C31 and C62.

### C75 Interpolating the probabilities of two language models (proved)

* Model: interpolate_linear, interpolate_loglinear and Token.recompute_total over the reals with infinities and NaN, and an arbitrary underflow of numpy.exp (InterpModel).
* Proof: InterpProofs: both branches of interpolate_linear compute the logarithm of the same sum; convexity of exp from 1 + x <= exp x; counterexamples for log-linear distributions, weights outside [0, 1] and recombination with linear interpolation.
* Theorems (`InterpProps.v`): `C75_linear`, `C75_weight_one_zero`, `C75_distribution`, `C75_between`, `C75_monotone`, `C75_loglinear`, `C75_loglinear_distribution_refuted`, `C75_weight_refuted`, `C75_loglinear_order`, `C75_linear_order_refuted`.
* Scope: Real numbers with infinities and NaN (axioms of the standard library reals); numpy.exp underflows for any set of numbers, other rounding and overflow are not modelled. Decoding with linear interpolation is otherwise in DecoderModel with the interpolation as a parameter; C27 is for log-linear interpolation, and the last refuted theorem shows why.

### C76 What the reverse_time option of a recurrent layer does (proved)

* Model: reverse_time in kind_of (BuildModel): a reversed LSTM or GRU layer is another kind of layer (NetModel), and in a bidirectional layer it also reverses the forward part.
* Proof: ReverseProps: every option that building a layer reads is the same for both descriptions; the kind depends on the option only through bool(); C46_refused for the layers that are created.
* Theorems (`ReverseProps.v`): `C76_value_ignored`, `C76_on`, `C76_no_steps`.
* Scope: The initial parameter values are the same function of layer and parameter name for both descriptions. What a reversed layer computes is part of C63, the dimensions of C61, what it sees of C45.

### C77 What the text of the score report tells (proved)

* Model: the text of the report as a function of the records of ScoreModel (ReportModel); the conversion of numbers to text and numpy.exp are parameters.
* Proof: ReportProofs: lines end at line feeds, fields at spaces; the only empty field of a line separates the prediction from the list of parts, whose length gives the number of parts of the word; first words from the history of the first line.
* Theorems (`ReportProps.v`): `C77_report_determines`, `C77_text_read_back`, `C77_no_words`, `C77_utterance_lines`.
* Scope: The text of a floating point number is an oracle: any function into texts without white space (two numbers with the same text cannot be told apart). What has been written before an exception is not modelled.

### C78 Training with an optimizer, from command to command (proved)

* Model: the optimizers of OptimizerModel as the update of the train command of TrainCommandModel, at the real numbers: shared variables of a network as tensors and back, variables of each kind in the state, which of them survive a save, arrays of a mini-batch (TrainOptimizerModel).
* Proof: TrainOptimizerProofs: the update keeps that the variables fit the network and are complete; TrainOptimizerRuns: an invariant of the states of a training and of the file, kept by every command; C39 gives that the update succeeds and what it does.
* Theorems (`TrainOptimizerProps.v`): `C78_update`, `C78_sgd`, `C78_weights_refuted`, `C78_reachable`, `C78_loaded`, `C78_saved`, `C78_switch`, `C78_same_optimizer`, `C78_adam_save_refuted`, `C78_save_again`.
* Scope: The gradient is an oracle that gives a tensor of the size of each parameter. Commands that use Adam have a validation set (without it the second save raises, C78_adam_save_refuted), and all commands describe the same network. Real arithmetic instead of floating point.

### C79 N-gram counts of the recipe scripts (proved)

* Model: RecipeModel: the counts as a dictionary, one line of a file and one word of a text at a time.
* Proof: RecipeProofs: an invariant of the text read so far (the history is its last words, each count is the number of occurrences); a lemma on dictionaries in which the last writer stays.
* Theorems (`RecipeProps.v`): `C79_from_text`, `C79_sentences_refuted`, `C79_read`, `C79_repeated_refuted`, `C79_read_limits`, `C79_write_read`.
* Scope: int() of a string and str() of a number are arbitrary functions (for C79_write_read such that int() reads what str() writes, followed by a line break). The text is given as a list of lines.

### C80 Class membership probabilities corrected from counts (proved)

* Model: RecipeModel: reading classes in the two formats, reading counts, the correction and the writing of normalised classes; the vocabulary reader is VocabModel.
* Proof: RecipeProofs: the classes and their words have no duplicates, the last line stays, each step changes values and no keys; the sums are computed over rational numbers.
* Theorems (`RecipeProps.v`): `C80_fixed`, `C80_sum`, `C80_read_refuted`, `C80_runs`.
* Scope: int(), float() and str() of numbers are arbitrary functions, and probabilities are rational numbers: rounding is not modelled.

## What Print Assumptions lists

The names below are axioms of the standard library. They come with the real
numbers: `ClassicalDedekindReals.sig_forall_dec`,
`ClassicalDedekindReals.sig_not_dec`,
`FunctionalExtensionality.functional_extensionality_dep`, and
`Classical_Prop.classic` (used by the library's exponential and logarithm).
`coqchk` also lists, for every library that is loaded, the module parameters of
`ssrunder` (seven) and of `RbaseSymbolsImpl`. No theorem depends on them
according to `Print Assumptions`.

Of the 402 theorems in the manifest, 319 are "Closed under the global context".
The others depend on:

* `sig_forall_dec` (3): `C39_initial`, `C40_cost_exists`, `C78_adam_save_refuted`.
* `sig_forall_dec`, `functional_extensionality_dep` (5): `C40_cost`, `C40_padding`, `C41_probs`, `C65_uniform`, `C72_written_probability`.
* `sig_forall_dec`, `sig_not_dec`, `functional_extensionality_dep` (32): `C38_norm`, `C38_unchanged_refuted`, `C38_step`, `C38_momentum`, `C39_total`, `C39_sgd`, `C39_nesterov`, `C39_adagrad`, `C39_adadelta`, `C39_rmsprop_sgd`, `C39_rmsprop_nesterov`, `C39_adam`, `C39_history`, `C39_adam_bias`, `C39_weights`, `C39_weights_refuted`, `C39_mean_square_refuted`, `C59_softmax_distribution`, `C59_hsoftmax_distribution`, `C59_hsoftmax_sum_refuted`, `C59_hsoftmax_exclude_unk_refuted`, `C65_normalized`, `C75_loglinear_distribution_refuted`, `C78_update`, `C78_sgd`, `C78_weights_refuted`, `C78_reachable`, `C78_loaded`, `C78_saved`, `C78_switch`, `C78_same_optimizer`, `C78_save_again`.
* `sig_forall_dec`, `sig_not_dec`, `classic`, `functional_extensionality_dep` (43): `C40_cross_entropy`, `C40_lower_bound`, `C40_padding_refuted`, `C40_nothing_counted_refuted`, `C42_log_likelihood`, `C42_gain`, `C43_step`, `C43_result`, `C43_terminates`, `C43_local_optimum_refuted`, `C44_bidirectional_padding_refuted`, `C45_stacked_layers_refuted`, `C57_nce`, `C57_nce_negative`, `C57_nce_target`, `C57_nce_sample`, `C57_blackout`, `C57_blackout_zero_refuted`, `C65_log_uniform`, `C65_distribution`, `C65_unigram`, `C65_draws`, `C65_repeats_refuted`, `C65_nce`, `C65_blackout`, `C65_sequence_sharing_refuted`, `C65_unsupported`, `C72_runs`, `C72_read_classes`, `C72_read_srilm`, `C72_read_default`, `C72_stream`, `C72_train_fails`, `C72_default_options_refuted`, `C75_linear`, `C75_weight_one_zero`, `C75_distribution`, `C75_between`, `C75_monotone`, `C75_loglinear`, `C75_weight_refuted`, `C75_loglinear_order`, `C75_linear_order_refuted`.

## Trusted base

1. Coq's kernel (8.16.1), and `coqchk` which checks the compiled files again.
2. The axioms of the standard library listed above.
3. The correspondence between the model and /repo, which is by reading: every
   definition of a model cites the lines that it models, and says where it
   simplifies.
4. The assumptions about Python, numpy, Theano and HDF5 below.

### Oracles

These are universally quantified arguments of the theorems.

* `parse_int`, `parse_float`, `show_num`, `show_z`: Python's `int()`, `float()`
  and `str()` of numbers. Round trip theorems assume `number_text`
  and `id_text` (LatticeSpec.v), that showing and then parsing gives the number back and that
  the text is not empty and has no whitespace, quotes, backslashes, `#` or commas; LatticeExamples.v gives an instance.
* `ln`, `qexp`, `nlog`: logarithms and exponentials where the property does not
  depend on their values. In C38-C43, C57, C59 and C75 they are those of `R`.
* `net`, `net_step`, `step`: the compiled network. C62 instantiates them with the
  networks of NetModel that BuildModel constructs.
* `hash`: the hash of a recombination context (any function, so collisions are
  covered).
* `choice`, `shuffle10`: numpy.random. IterSpec.v states the contract.
* `draw_class`, `draw_word`: the multinomial draws of the text sampler (any
  outcome with the right range).
* `update`, `perplexity`, `next_batch`, `isave`, `irestore`: the optimizer, the
  scorer and the iterator as the trainer sees them.
* `gradients`: the gradients as the optimizers see them (any function).
* `initial`: the initial values of parameters (any function of the parameter and
  the indices). `dropout_scale`: the number that a dropout rate is read as.
* Time priority, recombination and pruning use `sorted()`, modelled as a stable
  insertion sort.

### Assumptions about libraries

* numpy.ma: the sum of a fully masked array is `masked`, and comparison of it is
  false. numpy: `argmax` gives the first maximum. Indexing with an empty float
  array raises IndexError. int8 arrays wrap around.
* Theano: `scan` iterates its step function; the comparison of a symbolic
  variable with `!=` in Python is true; `h_softmax` computes what its
  documentation says; broadcasting of a bias over rows; gradients are whatever
  `theano.grad` returns.
* HDF5: a group is a finite map of attributes, data sets and groups; attributes
  and groups have separate names; the order of iteration over the members is by
  name.
* shlex: POSIX mode with the special characters that `slflattice.py` uses, as
  implemented in SlfModel.v.
* Dictionaries are association lists in the order of insertion (Python 3.7).
* Python recursion limits, memory limits, encoding errors and universal newlines
  are outside the model.

## What is modelled

| /repo/theanolm | modelled (file) | not modelled |
|---|---|---|
| parsing/functions.py | all (TextModel) | memory mapping of the file |
| parsing/batchiterator.py, linearbatchiterator.py, shufflingbatchiterator.py, scoringbatchiterator.py | all (IterModel) | gzip files, float type of the mask |
| vocabulary/vocabulary.py, wordclass.py, statistics.py | all except logging (VocabModel); `WordClass.sample` (SamplerModel) | numpy types of IDs |
| scoring/textscorer.py | scoring and subword merging, unknown words, `score_line`, `compute_perplexity` (ScoreModel) | profiling, printing |
| scoring/lattice.py, slflattice.py, kaldilattice.py, latticebatch.py | all (LatticeModel, SlfModel, KaldiModel) | gzip, logging of memory |
| scoring/latticedecoder.py | all except `_prune` logging and profiling (DecoderModel) | float overflow |
| scoring/rescoredlattice.py | all (RescoredModel) | |
| training/trainer.py, stoppers.py | the constructor, the loop, validation, annealing, state, stoppers (TrainerModel, TrainDataModel) | logging of costs and speed, custom statistics functions (the code ignores them) |
| training/*optimizer.py | update rules, normalisation, weights, state (OptimizerModel, ParamModel) | compilation, unused gradient checks |
| training/cost.py | all three costs (CostModel) | Theano's float type |
| network/*layer.py | evaluation of every layer type, constructors and parameter dimensions, splitting to devices (NetModel, DeviceModel, BuildModel, OutputModel) | random initial values |
| network/samplingoutputlayer.py, backend/classdistribution.py | scores of classes, noise samples, noise distributions (SamplingModel) | float rounding, the algorithm that draws without replacement |
| network/network.py | construction, recurrent state, output and target probabilities, state, `from_file` (BuildModel, NetModel, ParamModel, SavedModel) | two layers with the same name, output layer that is not the last layer |
| network/architecture.py, recurrentstate.py, networkinput.py | all (ArchModel, StateModel, NetModel; the changes that NetworkInput makes to the architecture in SavedModel) | |
| backend/parameters.py, operations.py | all that other models use (ParamModel, DeviceModel, CostModel) | GPU memory |
| backend/probfunctions.py | all (InterpModel); log-linear interpolation and the use of linear interpolation in DecoderModel | rounding and overflow in linear interpolation |
| textsampler.py, commands/sample.py | all (SamplerModel) | |
| commands/score.py | scoring, perplexity and word scores (ScoreModel), text of the report (ReportModel) | option parsing, log messages |
| commands/train.py | `_read_vocabulary` and `train` (TrainCommandModel), on a file that earlier commands have written; the validation scorer and iterator (ValidationModel); the write operations of a save (CrashModel) | option parsing, logging, creation of the optimizer from the options (the update is a parameter, instantiated with the optimizers in TrainOptimizerModel), a crash in the middle of one HDF5 operation, of writing the vocabulary or of writing the image of the file to the disk |
| commands/decode.py | `decode` after reading the model, `format_token` (CommandModel) | option parsing, logging, what is written of a Kaldi lattice before an exception |
| /repo/wordclasses, /repo/bin/wctool | both bigram optimizers, the main loop (BigramModel), the command from its arguments to its output (WctoolModel) | logging, opening of files |
| /repo/recipes/common/*.py | `NGramCounts.read`, `from_text`, `increment`, `write`; `WordClasses.read`, `write`; fix-class-probabilities.py (RecipeModel) | the other methods of NGramCounts, WordsToClasses, opening of files, rounding |

Not modelled at all: backend/gpu.py, debugfunctions.py, filetypes.py,
matrixfunctions.py, exceptions.py beyond their names, weightfunctions.py beyond
the dimensions, /repo/kaldi, the shell scripts of /repo/recipes, setup.py, GPU placement, Theano's
compilation and gradients, float rounding, the HDF5 and gzip formats, logging,
command line parsing and the operating system. In NetModel a mismatch of array
dimensions cuts the longer operand instead of raising an exception; C61 shows
that it does not happen in networks built from descriptions.

## Findings

Behaviour of the code that a user would not expect, found while modelling. Those
with a property are proved there.

1. A trailing piece of one token is dropped when sentences are cut, so `</s>` can
   be lost (C06). `len()` in mid-epoch rewinds an iterator (C04).
2. The state of an iterator leaves out the sentence that is being cut (C08).
3. File IDs are stored as int8 and wrap from file 128 on (C05).
4. A saved vocabulary can keep stale unigram probabilities (C14). Class and
   out-of-shortlist probabilities divide by zero when nothing was counted (C13).
5. Merging subwords by word boundary can drop a word (C16).
6. `score_line` raises IndexError for lines with out-of-shortlist words (C19).
7. Cyclic lattices are ordered incompletely with a warning (C21); reachable nodes
   with an unreachable predecessor are never decoded (C26).
8. Kaldi vocabularies with gaps in their IDs are not usable (C25). Node numbers
   may be negative in SLF files (C55).
9. The token limit divided to zero raises AssertionError (C29).
10. Rescored lattices can contain word sequences that the lattice does not have,
    and lose the scores of trailing null links (C30).
11. The decoder adds the membership probability of the input word instead of the
    predicted word, so the scores of incomplete hypotheses differ from text
    scoring, and those of complete ones if `<s>` and `</s>` have different
    membership probabilities (C31).
12. The decode command sets `prune_relative` but the decoder reads
    `prune_extra_limit`.
13. Validation can be requested without any model being saved (C32); resuming
    can repeat an epoch and lose a decreased learning rate (C36); annealing
    resets the epoch number, so the maximum does not bound training (C35).
14. A failed restore leaves the parameters changed in part (C37).
15. Gradient normalisation also shrinks steps within the threshold (C38).
16. `--weights` has no effect; RMSProp with Nesterov momentum never updates its
    mean square; `momentum` is unused by Adam (C39).
17. A zero probability at a padded position and a batch without counted words
    make the cost NaN (C40); BlackOut is NaN for
    classes with zero prior (C57).
18. The gain of moving a word can be NaN or masked, so that class optimization
    stops before a local optimum (C43).
19. Bidirectional layers read padding (C44); a recurrent layer above a
    bidirectional layer sees the word to be predicted (C45).
20. Gated linear units and hierarchical softmax do not work on named devices
    (C47); softmax on exactly one named device raises KeyError, so
    `--default-device` does not work with softmax (C61).
21. Hierarchical softmax ignores `exclude_unk`, and its probabilities sum to less
    than one when the levels have more cells than there are classes (C59).
22. Lists of more than ten layers or inputs are restored in the wrong order
    (C50). `inputs=` and `devices=` in a description replace a list with a
    string (C60).
23. With `exclude_unk`, an unknown word in a lattice has probability zero, whose
    logarithm is minus infinity (C62).
24. A slash in a layer name can give two parameters the same path: saving writes
    one over the other, and the loaded model computes other probabilities. Paths
    also contain the name of the default device, so that a model cannot be
    loaded with another default device. A model with eleven inputs of a layer
    can be saved but not loaded (C64).
25. Uniform and log-uniform noise samples can contain a class many times, although
    the documentation says they are unique. Unigram noise that is shared between
    sequences needs as many classes as time steps times samples, since all the
    time steps are drawn at once without replacement (C65).
26. The decode command numbers utterances without an ID from zero in every job, so
    that their IDs collide when the outputs of the jobs are combined. A rescored
    lattice has the LM scale and the word insertion penalty of the arguments, not
    those used in decoding: the scale of the input lattice is dropped, and with
    `--log-base B` the penalty is written in base B to a file without a base. A
    negative `--n-best` leaves out that many of the worst hypotheses (C67).
27. When the learning rate is decreased after the last, incomplete mini-batch of an
    epoch, the iterator still remembers that the epoch has ended: the rest of the
    epoch of the saved model is skipped. With a maximum sequence length, what was
    left of the sentence that was being read is read before the restored sentences.
    The expected number of updates is counted without sampling, so that with a small
    `--sampling` fraction no validation is ever done and no model is saved (C68).
28. A train command that exits with an error because of its options, or raises an
    exception after it has read the vocabulary, has already written the vocabulary to
    the model file. A corrected command then silently ignores `--vocabulary`,
    `--num-classes` and a changed training set (C69).
29. The vocabulary that is made of the training set gives the special tokens, also the
    end of sentence, the unigram probability zero, although with a vocabulary file the
    tags of the sentences are counted. The end of sentence is then never drawn as noise
    from the unigram distribution (C69).
30. After a `DisconnectedInputError` the train command prints a message and continues to
    use the variable that was not assigned (read from the code, not modelled).
31. Training validates with a network that does not exclude `<unk>`, also with
    `--exclude-unk`, but `score --exclude-unk` loads a network that does. The perplexity
    that training reports is confirmed by `score --shortlist` without `--exclude-unk`,
    and not by the same options (C70).
32. A word of probability zero makes validation raise an exception, so training stops;
    the score command leaves the word out of the perplexity (C70).
33. An interrupt from the keyboard while a save replaces the groups of the file leaves a
    file without one of them: no model can be loaded, or no command can continue the
    training, or the next command silently starts from the beginning (C71).
34. An interrupt while a save writes in place leaves a network with some of the new
    parameters and some of the old ones, which is loaded and trained without an error. In a
    new file it leaves a state that no command can continue or replace: the file has to be
    removed by hand (C71).
35. With the default options of `wctool` the class of `<unk>` gets probability zero in the
    output, unless the training text contains `<unk>`, and the train command divides by
    zero when it reads the file (C72).
36. When the output of `wctool` goes to a pipe, it has one copy of the vocabulary for every
    save, and cannot be read because words are repeated (C72).
37. Linear interpolation is applied to the probabilities of whole hypotheses. The order of
    two hypotheses with the same words can change when they are extended, so that with
    `--linear-interpolation` recombination can discard the hypothesis that would become the
    best. A weight outside [0, 1] gives NaN scores or an exception (C75).
38. `bool(layer_options['reverse_time'])` is applied to a string: `reverse_time=false` and
    `reverse_time=0` reverse the layer. The only value that does not is the empty one (C76).
39. Adam keeps its time step as a scalar variable `optimizer/timestep`, and
    `Parameters.get_state` overwrites existing datasets with `state[path][:] = value`, which
    h5py refuses for scalars. Saving the state of Adam a second time in the same file raises
    an exception, after the network has been written. Without a validation set this happens
    at the end of the second epoch (C78).
40. `NGramCounts.from_text` does not clear the history between lines, so n-grams cross
    sentence boundaries (C79).
41. `NGramCounts.read` overwrites the count of an n-gram that is on several lines (C79).
42. `NGramCounts.prune_count` refers to the undefined name `mydict`, so it raises NameError
    whenever there is something to prune (by reading; not modelled).
43. `fix-class-probabilities.py` writes zero probabilities for a class without probabilities
    none of whose words has a count, and TheanoLM raises ZeroDivisionError when it reads the
    file (C80).
