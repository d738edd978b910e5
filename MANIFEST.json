{"claims": [
  {"property": "C01", "status": "proved", "theorems": ["C01_utterance_framing", "C01_utterance_exact", "C01_tokens_unique", "C01_framing_unique", "C01_utterance_idempotent"], "note": "For every line; exact characterisation of the result, uniqueness of the specification and idempotence."},
  {"property": "C02", "status": "proved", "theorems": ["C02_sentence_starts_exact", "C02_readlines_at_starts", "C02_lines_exist", "C02_lines_unique"], "note": "For every file content."},
  {"property": "C03", "status": "proved", "theorems": ["C03_linear_epochs", "C03_batches_concat", "C03_lines_exist", "C03_sequences_exist", "C03_sequences_unique"], "note": "Linear iterator, any number of epochs, any number of files."},
  {"property": "C04", "status": "proved", "theorems": ["C04_batch_sizes", "C04_shuffling_sizes", "C04_len_mid_epoch_rewinds"], "note": "For freshly created iterators, as the property says; C04_len_mid_epoch_rewinds shows that len() in mid-epoch rewinds the iterator (outside the property)."},
  {"property": "C05", "status": "proved", "theorems": ["C05_matrices", "C05_total", "C05_ids_in_vocabulary", "C05_ids_in_shortlist", "C05_decodable", "C05_file_ids_small", "C05_file_ids_wrap"], "note": "C05_file_ids_wrap records that the separate file ID matrix is stored as int8 and wraps from file 128 on; the property speaks about word IDs and mask."},
  {"property": "C06", "status": "proved", "theorems": ["C06_presented_tokens", "C06_uncut", "C06_cutting_loses_token_refuted", "C06_length_one_refuted", "C06_length_zero_refuted"], "note": "Exact claim proved for every line; the expectation that nothing is lost is refuted: a piece of one token is dropped, so </s> is lost when length mod max = 1; exact set of presented tokens proved. Max length 1 presents nothing, 0 never returns."},
  {"property": "C07", "status": "proved", "theorems": ["C07_shuffled_epochs_permute", "C07_sampled_epochs", "C07_init_total"], "note": "Under the contracts of numpy.random.choice and shuffle stated in IterSpec.v."},
  {"property": "C08", "status": "proved", "theorems": ["C08_resume_exact", "C08_uncut_always_exact", "C08_resume_misses_current_sentence", "C08_state_accepted", "C08_resume_mid_sentence_refuted"], "note": "Exact claim proved; exact resumption is refuted when a sentence is being cut at the time of saving (the buffer is not saved); proved exactly which sequences are missed, and exact resumption when nothing is buffered, in particular without a maximum length."},
  {"property": "C09", "status": "proved", "theorems": ["C09_inverse_maps", "C09_special_tokens_present", "C09_words_to_ids", "C09_file_layout", "C09_file_accepted"], "note": "Every vocabulary built from a file or counts and then updated, saved and loaded any number of times; the layout and the exact condition for a file to be accepted are proved too."},
  {"property": "C10", "status": "proved", "theorems": ["C10_partition", "C10_class_shape", "C10_file_classes", "C10_special_own_class", "C10_normal_classes", "C10_class_membership"], "note": "Partition for every reachable vocabulary; the classes of a file vocabulary are those the file names."},
  {"property": "C11", "status": "proved", "theorems": ["C11_file_distributions", "C11_file_values", "C11_recomputed", "C11_unigram_probs"], "note": "Values given exactly. For files the weights have to be non-negative to give a distribution (the sum is 1 in any case). Exact rationals."},
  {"property": "C12", "status": "proved", "theorems": ["C12_frequency_classes", "C12_zero_classes"], "note": "For one or more classes; zero classes raise ZeroDivisionError (C12_zero_classes)."},
  {"property": "C13", "status": "proved", "theorems": ["C13_oos_weights", "C13_completes_distribution", "C13_zero_mass_undefined"], "note": "If some out-of-shortlist word has been counted; otherwise the code divides by zero (C13_zero_mass_undefined)."},
  {"property": "C14", "status": "proved", "theorems": ["C14_state_round_trip", "C14_saving_succeeds", "C14_stale_unigrams_survive"], "note": "Saving into a new state, and over an old state unless it holds unigram probabilities that the saved vocabulary lacks: those survive (C14_stale_unigrams_survive)."},
  {"property": "C15", "status": "proved", "theorems": ["C15_word_counts", "C15_utterances_exist", "C15_bigram_statistics", "C15_row_column_sums"], "note": "Counts are unbounded integers."},
  {"property": "C16", "status": "proved", "theorems": ["C16_merging", "C16_invalid_arguments", "C16_one_score_for_each_word", "C16_affix_tokens", "C16_affix_total", "C16_boundary_tokens", "C16_boundary_total", "C16_boundary_loss", "C16_reported_total", "C16_boundary_refuted"], "note": "For every token sequence; exact loss of word-boundary merging proved, unconditional conservation refuted."},
  {"property": "C17", "status": "proved", "theorems": ["C17_batch_scores", "C17_scores_unique", "C17_score_text", "C17_cross_entropy", "C17_infinite_scores_fail", "C17_no_probability_fails"], "note": "For any network whose output for a sequence does not depend on the rest of the mini-batch (batch_independent, see C44). Logarithm and network are parameters; exact numbers plus -inf and NaN."},
  {"property": "C18", "status": "proved", "theorems": ["C18_excluded_words", "C18_other_words_unaffected", "C18_policies"], "note": "Text scorer. The decoder options are a separate property."},
  {"property": "C19", "status": "proved", "theorems": ["C19_line_score", "C19_blank_line", "C19_oos_line_fails", "C19_utterances", "C19_line_score_refuted"], "note": "Exact claim for every line; agreement for lines with out-of-shortlist words refuted (IndexError)."},
  {"property": "C20", "status": "proved", "theorems": ["C20_topological_order", "C20_acyclic_complete"], "note": "Every lattice that is internally consistent (lattice_ok); C24_read_consistent proves that for lattices read from SLF files and C25 for lattices read from Kaldi archives."},
  {"property": "C21", "status": "proved", "theorems": ["C21_error_condition", "C21_complete_order_acyclic", "C21_cycle_rejected_refuted"], "note": "Exact condition for the error; rejection of every reachable cycle refuted: unless the cycle goes through the initial node, only a warning about unreachable nodes is given and the order is truncated."},
  {"property": "C22", "status": "proved", "theorems": ["C22_job_contents", "C22_partition", "C22_sizes", "C22_invalid_job"], "note": "For every list and number of jobs."},
  {"property": "C23", "status": "proved", "theorems": ["C23_archive_blocks", "C23_every_archive"], "note": "The specification is an inductive relation; it holds for exactly one list of blocks. Universal newlines are not modelled."},
  {"property": "C24", "status": "proved", "theorems": ["C24_slf_round_trip", "C24_read_consistent", "C24_unconditional_refuted"], "note": "number_text states what is assumed about int(), float() and str(); met by a concrete syntax in LatticeExamples.v. Finite scores only."},
  {"property": "C25", "status": "proved", "theorems": ["C25_kaldi_round_trip", "C25_final_word_lost_refuted", "C25_id_gap_refuted"], "note": "As C24; vocabulary IDs have to be below the number of words (C25_id_gap_refuted)."},
  {"property": "C26", "status": "proved", "theorems": ["C26_hypotheses_are_paths", "C26_scores_of_a_path"], "note": "For every lattice that is internally consistent and any network that treats the sequences of a batch independently. Infinite scores raise NumberError in the model (in the code they stay -inf). Exact rationals; linear interpolation is a parameter."},
  {"property": "C27", "status": "proved", "theorems": ["C27_no_word_sequence_is_lost", "C27_first_token_is_best"], "note": "Log-linear interpolation only: with linear interpolation dropping a hypothesis with the same history is not lossless."},
  {"property": "C28", "status": "proved", "theorems": ["C28_recombination", "C28_decoded_tokens"], "note": "sorted() is modelled as a stable sort; the hash is an arbitrary function."},
  {"property": "C29", "status": "proved", "theorems": ["C29_pruning", "C29_best_recorded", "C29_decoding_succeeds", "C29_divided_limit_refuted"], "note": "Exact claim; the best token can be lost when the token limit is divided to zero (C29_divided_limit_refuted)."},
  {"property": "C30", "status": "proved", "theorems": ["C30_paths_kept", "C30_links", "C30_no_new_word_sequences", "C30_rescoring_succeeds", "C30_null_links_refuted"], "note": "Exact claim. Recombination after null links can add word sequences that the original lattice does not have (C30_null_links_refuted); scores of null links after the last word are lost, which C30_paths_kept states."},
  {"property": "C31", "status": "proved", "theorems": ["C31_words", "C31_totals", "C31_decoded", "C31_same_total", "C31_own_class", "C31_incomplete_hypotheses_refuted", "C31_class_of_sentence_end_refuted"], "note": "The network is a parameter of both models; same_network says that it is the same network in both. Logarithms of probabilities are a parameter."},
  {"property": "C32", "status": "proved", "theorems": ["C32_schedule", "C32_saved_refuted"], "note": "Exact claim; C32_saved_refuted shows a run in which validation is requested and no model is saved."},
  {"property": "C33", "status": "proved", "theorems": ["C33_best", "C33_saved_state", "C33_validation", "C33_no_exception"], "note": "For every network update, perplexity, iterator and options; perplexities are assumed positive. The cost statistic is the median, which is the only one the trainer computes."},
  {"property": "C34", "status": "proved", "theorems": ["C34_annealing"], "note": "Every history of validation costs."},
  {"property": "C35", "status": "proved", "theorems": ["C35_stops", "C35_epoch", "C35_terminates", "C35_max_epochs_refuted"], "note": "Exact claim; C35_max_epochs_refuted gives an endless run. Perplexities are assumed to be at least one for termination."},
  {"property": "C36", "status": "proved", "theorems": ["C36_resume", "C36_restore", "C36_incompatible", "C36_repeated_epoch_refuted", "C36_learning_rate_refuted"], "note": "Exact claim for resuming at a validation point; C36_repeated_epoch_refuted and C36_learning_rate_refuted are the false expectations."},
  {"property": "C37", "status": "proved", "theorems": ["C37_add", "C37_save", "C37_restore", "C37_round_trip", "C37_failed_restore_refuted", "C37_failed_network_restore", "C37_size_refuted", "C37_save_again_refuted", "C37_save_again"], "note": "Exact claim; C37_failed_restore_refuted, C37_size_refuted and C37_save_again_refuted are the false expectations."},
  {"property": "C38", "status": "proved", "theorems": ["C38_norm", "C38_unchanged_refuted", "C38_step", "C38_momentum"], "note": "Over the real numbers (standard library axioms of the reals), for every history."},
  {"property": "C39", "status": "proved", "theorems": ["C39_total", "C39_initial", "C39_sgd", "C39_nesterov", "C39_adagrad", "C39_adadelta", "C39_rmsprop_sgd", "C39_rmsprop_nesterov", "C39_adam", "C39_history", "C39_adam_bias", "C39_weights", "C39_weights_refuted", "C39_mean_square_refuted"], "note": "Over the real numbers; C39_weights_refuted and C39_mean_square_refuted are the false expectations. The published rule of RMSProp with Nesterov momentum is the one with the accumulator left out of the update."},
  {"property": "C40", "status": "proved", "theorems": ["C40_cost", "C40_cost_exists", "C40_padding", "C40_cross_entropy", "C40_lower_bound", "C40_padding_refuted", "C40_nothing_counted_refuted"], "note": "Exact claim over the reals extended with infinities and NaN; C40_padding_refuted and C40_nothing_counted_refuted are the false expectations."},
  {"property": "C41", "status": "proved", "theorems": ["C41_create", "C41_moves", "C41_move_succeeds", "C41_probs"], "note": "Both implementations, any sequence of moves."},
  {"property": "C42", "status": "proved", "theorems": ["C42_log_likelihood", "C42_gain"], "note": "Exact claim: numeric states when the gain is a number for each implementation. The masked sum is that of numpy.ma."},
  {"property": "C43", "status": "proved", "theorems": ["C43_step", "C43_result", "C43_terminates", "C43_local_optimum_refuted"], "note": "Exact claim; C43_local_optimum_refuted is the false expectation. Logarithms are exact real numbers."},
  {"property": "C44", "status": "proved", "theorems": ["C44_sequence_alone", "C44_any_batch", "C44_other_sequences", "C44_bidirectional_padding_refuted"], "note": "Every network architecture of the modelled layers, any arithmetic. C44_bidirectional_padding_refuted (real numbers) is the false expectation for bidirectional layers."},
  {"property": "C45", "status": "proved", "theorems": ["C45_only_the_past", "C45_not_the_predicted_word", "C45_stacked_layers_refuted"], "note": "Exact claim; C45_stacked_layers_refuted (real numbers) is the false expectation."},
  {"property": "C46", "status": "proved", "theorems": ["C46_stepwise", "C46_refused"], "note": "Every network, any arithmetic."},
  {"property": "C47", "status": "proved", "theorems": ["C47_split", "C47_parts", "C47_same_output", "C47_softmax_one_named_device_refuted", "C47_hsoftmax_named_devices_refuted", "C47_glu_named_devices_refuted"], "note": "Every list of layers, every assignment of devices, any arithmetic."},
  {"property": "C48", "status": "proved", "theorems": ["C48_levels", "C48_target_probability", "C48_target_probability_step"], "note": "Level sizes with an exact square root (floats are not modelled). Target probabilities for every network and any arithmetic."},
  {"property": "C49", "status": "proved", "theorems": ["C49_initial_state", "C49_set", "C49_combine", "C49_combine_nothing", "C49_extract", "C49_parallel_steps"], "note": "Every list of states and every network; elements of any type."},
  {"property": "C50", "status": "proved", "theorems": ["C50_save_again", "C50_load", "C50_load_same", "C50_more_than_ten", "C50_check_exact", "C50_check_same_shape", "C50_check_errors", "C50_eleven_inputs_refuted", "C50_different_architecture_refuted"], "note": "Attributes hold strings and integers; HDF5 iteration order does not matter."},
  {"property": "C51", "status": "proved", "theorems": ["C51_shape", "C51_drawn", "C51_words_and_classes", "C51_own_history", "C51_succeeds", "C51_unknown_seed", "C51_no_room_for_seed", "C51_prints", "C51_requested_length_refuted"], "note": "The network and the random number generators are parameters: the theorems hold for every outcome of the draws. C51_own_history instantiates the network with the model of NetModel."},
  {"property": "C52", "status": "proved", "theorems": ["C52_class_probs"], "note": "Exact rationals."},
  {"property": "C53", "status": "proved", "theorems": ["C53_word_scores", "C53_text_reports"], "note": "The entries are modelled as records; the printed lines are the subject of C77."},
  {"property": "C54", "status": "proved", "theorems": ["C54_node_words"], "note": "For the traversal as the code does it; the recursion limit of Python is not modelled."},
  {"property": "C55", "status": "proved", "theorems": ["C55_slf_contents"], "note": "For every file that can be read. The tokens of a line are those of shlex (modelled)."},
  {"property": "C56", "status": "proved", "theorems": ["C56_kaldi_read_succeeds", "C56_kaldi_vocabulary"], "note": "Exact condition for files without negative state numbers."},
  {"property": "C57", "status": "proved", "theorems": ["C57_nce", "C57_nce_negative", "C57_nce_target", "C57_nce_sample", "C57_blackout", "C57_blackout_zero_refuted"], "note": "C57_blackout_zero_refuted is the false expectation. Over the real numbers."},
  {"property": "C58", "status": "proved", "theorems": ["C58_statistics", "C58_schedule"], "note": "Every corpus, size and frequency."},
  {"property": "C59", "status": "proved", "theorems": ["C59_softmax_distribution", "C59_hsoftmax_distribution", "C59_hsoftmax_sum_refuted", "C59_hsoftmax_exclude_unk_refuted"], "note": "Real numbers. The refuted theorems are the false expectations for hierarchical softmax."},
  {"property": "C60", "status": "proved", "theorems": ["C60_reads", "C60_accepts", "C60_errors", "C60_attribute_error"], "note": "Python integer syntax is a parameter. Files whose layer lines have a field called inputs or devices are covered only by the theorem about exceptions."},
  {"property": "C61", "status": "proved", "theorems": ["C61_evaluates", "C61_otherwise", "C61_steps", "C61_parameters", "C61_default_device_refuted"], "note": "Initial parameter values are arbitrary; descriptions with two layers of the same name or with an output layer that is not the last one are not modelled."},
  {"property": "C62", "status": "proved", "theorems": ["C62_scoring_network", "C62_scoring_computes", "C62_decoding_network", "C62_same_network", "C62_scored_text", "C62_decoded_total"], "note": "Rational numbers with arbitrary exponential and activation functions. This discharges, for networks of NetModel, the hypotheses about the network in C16-C19 and C26-C31."},
  {"property": "C63", "status": "proved", "theorems": ["C63_probabilities", "C63_described"], "note": "EquationSpec.v gives the equations per unit, time step and sequence, DescribedSpec.v what a description says. Sums are in the order of the model, so no law of arithmetic is used. The limits of the modelled descriptions are those of C61."},
  {"property": "C64", "status": "proved", "theorems": ["C64_load", "C64_same_probabilities", "C64_never_different", "C64_resume", "C64_slash_refuted", "C64_eleven_refuted", "C64_default_device_refuted"], "note": "Composes the models of the vocabulary, architecture and parameter state with network construction. A file is the vocabulary state, the architecture state and a dictionary of arrays; the limits of the modelled descriptions are those of C61."},
  {"property": "C65", "status": "proved", "theorems": ["C65_scores", "C65_noise", "C65_unsupported_noise", "C65_unsupported_scores", "C65_normalized", "C65_uniform", "C65_log_uniform", "C65_distribution", "C65_unigram", "C65_draws", "C65_distinct", "C65_repeats_refuted", "C65_nce", "C65_blackout", "C65_sequence_sharing_refuted", "C65_unsupported"], "note": "Random numbers are arguments; drawing without replacement by Theano is specified by draws_without_replacement (SamplingSpec.v). Rounding of floating point numbers is not modelled. SamplingExamples.v has the concrete cases."},
  {"property": "C66", "status": "proved", "theorems": ["C66_accepted", "C66_necessary", "C66_network", "C66_devices"], "note": "AcceptSpec.v states the conditions on the options. C66_necessary needs no assumption about the description. Descriptions with equal layer names or an output layer that is not the last one are not modelled (record ordinary). Arrays may be empty in the model."},
  {"property": "C67", "status": "proved", "theorems": ["C67_start", "C67_lines", "C67_fields", "C67_prune_relative_ignored", "C67_jobs", "C67_kaldi_ids", "C67_slf_output", "C67_job_ids_refuted", "C67_scales_refuted"], "note": "Composes the models of LatticeBatch, the lattice readers, the decoder, RescoredLattice and the writers. Reading the model file is C64. The network, printing of numbers and reading of files are parameters."},
  {"property": "C68", "status": "proved", "theorems": ["C68_epochs", "C68_no_exception", "C68_terminates", "C68_annealing", "C68_never_saved", "C68_resume", "C68_skipped_refuted", "C68_leftover_refuted", "C68_sampling_refuted", "C68_orders_refuted"], "note": "Composes the trainer model (C32-C36) with the shuffling iterator model (C03-C09). Exact claims; C68_skipped_refuted, C68_leftover_refuted, C68_sampling_refuted and C68_orders_refuted are the false expectations. The random generator is any that meets the contracts of choice and shuffle; the optimizer and the perplexity are parameters."},
  {"property": "C69", "status": "proved", "theorems": ["C69_failed_command_refuted", "C69_special_tokens", "C69_end_of_sentence_refuted", "C69_vocabulary", "C69_refused", "C69_weights", "C69_old_file", "C69_loaded", "C69_saved", "C69_continued", "C69_started", "C69_resumed", "C69_report"], "note": "Composes the vocabulary (C10-C14), the trainer with its data (C32-C36, C68), network construction (C66) and the saved model (C64). Exact claims; C69_failed_command_refuted and C69_end_of_sentence_refuted are the false expectations. The optimizer update is any function that keeps the dimensions of the parameters; the perplexity is a parameter."},
  {"property": "C70", "status": "proved", "theorems": ["C70_exclude_unk_refuted", "C70_shortlist_refuted", "C70_cut_refuted", "C70_zero_probability_refuted", "C70_any_values", "C70_trained_network", "C70_report", "C70_validation", "C70_validations", "C70_score_confirms", "C70_score_predicts"], "note": "Composes the train command (C69), the saved model (C64), the network (C62, C66) and the text scorer (C15-C18). Exact claims; C70_exclude_unk_refuted, C70_shortlist_refuted, C70_cut_refuted and C70_zero_probability_refuted are the false expectations. ln and exp are parameters; C70_report assumes that the perplexity used by the trainer is that of the modelled validation."},
  {"property": "C71", "status": "proved", "theorems": ["C71_interrupt_loses_model_refuted", "C71_interrupt_starts_over_refuted", "C71_interrupt_mixes_refuted", "C71_stops", "C71_complete", "C71_killed", "C71_killed_history", "C71_history", "C71_stuck", "C71_interrupted_copy", "C71_interrupted_write"], "note": "Extends C69 with the write operations of a save and the file in memory (HDF5 core driver, flushed at the end of a save). Exact claims; C71_interrupt_loses_model_refuted, C71_interrupt_starts_over_refuted and C71_interrupt_mixes_refuted are the false expectations. One h5py call happens or does not happen; an interrupt while the vocabulary is written and a crash while the image is written to the disk are not modelled."},
  {"property": "C72", "status": "proved", "theorems": ["C72_written_probability", "C72_runs", "C72_read_classes", "C72_read_srilm", "C72_read_default", "C72_stream", "C72_train_fails", "C72_default_options_refuted"], "note": "Composes wctool (C41-C43, C58), the vocabulary builders (C12) and the vocabulary file reader (C09). Exact claims; C72_default_options_refuted is the false expectation. The texts of numbers are parameters that are read back as the same number (number_text)."},
  {"property": "C73", "status": "proved", "theorems": ["C73_generated", "C73_word_scores", "C73_total", "C73_line", "C73_next_word", "C73_all_texts", "C73_softmax"], "note": "Composes the text sampler (C51), the network evaluated step by step and as a mini-batch (C61, C62) and the text scorer (C15-C19). The random choices are parameters, one for every time step, sequence and list of probabilities; that they have these probabilities and are independent is the contract of the random number generators. ln is any function with the product law (an example is given). The lines agree for rational arithmetic."},
  {"property": "C74", "status": "proved", "theorems": ["C74_loaded", "C74_always_or_never", "C74_scored_text", "C74_commands_agree"], "note": "Composes the histories of killed and interrupted commands (C71), loading (C64, C69), trained networks as built networks (C70) and the agreement of scoring with decoding (C62) and with sampling (C73). The commands are those of the models of the earlier properties, with the same default device. ln is any function with the product law; rational arithmetic. The membership probabilities of <s> and </s> are assumed equal and positive, as in C31 and C62."},
  {"property": "C75", "status": "proved", "theorems": ["C75_linear", "C75_weight_one_zero", "C75_distribution", "C75_between", "C75_monotone", "C75_loglinear", "C75_loglinear_distribution_refuted", "C75_weight_refuted", "C75_loglinear_order", "C75_linear_order_refuted"], "note": "Real numbers with infinities and NaN (axioms of the standard library reals); numpy.exp underflows for any set of numbers, other rounding and overflow are not modelled. Decoding with linear interpolation is otherwise in DecoderModel with the interpolation as a parameter; C27 is for log-linear interpolation, and the last refuted theorem shows why."},
  {"property": "C76", "status": "proved", "theorems": ["C76_value_ignored", "C76_on", "C76_no_steps"], "note": "The initial parameter values are the same function of layer and parameter name for both descriptions. What a reversed layer computes is part of C63, the dimensions of C61, what it sees of C45."},
  {"property": "C77", "status": "proved", "theorems": ["C77_report_determines", "C77_text_read_back", "C77_no_words", "C77_utterance_lines"], "note": "The text of a floating point number is an oracle: any function into texts without white space (two numbers with the same text cannot be told apart). What has been written before an exception is not modelled."},
  {"property": "C78", "status": "proved", "theorems": ["C78_update", "C78_sgd", "C78_weights_refuted", "C78_reachable", "C78_loaded", "C78_saved", "C78_switch", "C78_same_optimizer", "C78_adam_save_refuted", "C78_save_again"], "note": "The gradient is an oracle that gives a tensor of the size of each parameter. Commands that use Adam have a validation set (without it the second save raises, C78_adam_save_refuted), and all commands describe the same network. Real arithmetic instead of floating point."},
  {"property": "C79", "status": "proved", "theorems": ["C79_from_text", "C79_sentences_refuted", "C79_read", "C79_repeated_refuted", "C79_read_limits", "C79_write_read"], "note": "int() of a string and str() of a number are arbitrary functions (for C79_write_read such that int() reads what str() writes, followed by a line break). The text is given as a list of lines."},
  {"property": "C80", "status": "proved", "theorems": ["C80_fixed", "C80_sum", "C80_read_refuted", "C80_runs"], "note": "int(), float() and str() of numbers are arbitrary functions, and probabilities are rational numbers: rounding is not modelled."}
]}
