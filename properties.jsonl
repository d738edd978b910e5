{"id": "C01", "title": "Utterance framing", "statement": "Parsing a line of text yields the empty list exactly when the line is blank; otherwise it yields a list that starts with <s>, ends with </s>, has at least two tokens, and whose tokens are exactly the whitespace separated tokens of the line with a <s> put in front if the first token is not <s> and a </s> put after if the last token is not </s>. Parsing the space-joined result again returns the same list.", "quantifier": "every text line, of any length and with any mix of whitespace and tokens, including lines that consist of marker tokens only", "why_tests_cant": "a test samples a few lines; the framing rule has to hold for every line, and every reader in the toolkit builds on it", "anchors": ["theanolm/parsing/functions.py:utterance_from_line"]}
{"id": "C02", "title": "Sentence index is exactly the line starts", "statement": "The sentence index of a training file lists, in increasing order and without repetition, exactly the byte offsets at which a line begins (offset 0 and every offset that follows a newline and lies inside the file), so seeking to the entries and reading one line each reproduces the file's lines in order.", "quantifier": "every file content (any bytes, empty lines, with or without trailing newline, one line or many)", "why_tests_cant": "off-by-one errors at the last line or around empty lines show only on particular contents; the claim is about all contents", "anchors": ["theanolm/parsing/functions.py:find_sentence_starts", "theanolm/parsing/shufflingbatchiterator.py:SentencePointers"]}
{"id": "C03", "title": "An epoch reads every sentence once, in order", "statement": "Iterating a linear mini-batch iterator from the start until it stops returns, over all the mini-batches concatenated, exactly the sequences obtained by parsing each line of each file in order (cut into pieces of at most max_sequence_length tokens, pieces shorter than two tokens left out), each once and in order; iterating again gives the same mini-batches.", "quantifier": "every list of input files and contents, every batch size >= 1, every maximum length >= 1 or none, and every number of epochs", "why_tests_cant": "the iterator is a stateful machine (file index, file position, left-over buffer, end-of-file flag); tests exercise a handful of trajectories", "anchors": ["theanolm/parsing/batchiterator.py:BatchIterator.__next__", "theanolm/parsing/batchiterator.py:BatchIterator._read_sequence", "theanolm/parsing/linearbatchiterator.py:LinearBatchIterator._readline", "theanolm/parsing/linearbatchiterator.py:LinearBatchIterator._reset"]}
{"id": "C04", "title": "Mini-batch sizes and iterator length", "statement": "Every mini-batch of an epoch except the last holds exactly batch_size sequences, the last holds between 1 and batch_size, no empty mini-batch is produced, and len() of a freshly created iterator equals the number of mini-batches of the epoch that follows.", "quantifier": "every input text, batch size and maximum length", "why_tests_cant": "boundary cases (number of sentences a multiple of the batch size, no sentences, sentences dropped at the end) are unbounded in number", "anchors": ["theanolm/parsing/batchiterator.py:BatchIterator.__next__", "theanolm/parsing/batchiterator.py:BatchIterator.__len__"]}
{"id": "C05", "title": "Mini-batch matrices encode the sequences", "statement": "The matrices of a mini-batch have as many columns as sequences and as many rows as the longest sequence; column j holds the IDs of sequence j followed by the <unk> ID as padding; the mask is one exactly on the cells that hold a word and zero on the padding; no ID is outside the vocabulary, and with map_oos_to_unk no ID is outside the shortlist; in-vocabulary (in-shortlist) words are decodable from the matrix.", "quantifier": "every vocabulary, every list of sequences of at least two tokens, every choice of map_oos_to_unk", "why_tests_cant": "ragged batches have unboundedly many shapes; a wrong mask cell silently corrupts training and perplexity", "anchors": ["theanolm/parsing/batchiterator.py:BatchIterator._prepare_batch", "theanolm/parsing/scoringbatchiterator.py:ScoringBatchIterator._prepare_batch"]}
{"id": "C06", "title": "What cutting long sentences presents", "statement": "When sentences are cut to max_sequence_length (two or more), the pieces of a sentence are at most that long and their concatenation in order is the sentence, except that the last token is left out exactly when one token would remain for the last piece; a maximum of one presents nothing and a maximum of zero never returns. (The expectation that every token of the text is presented is false: the refuted theorems give the counterexamples.)", "quantifier": "every sentence and every maximum length", "why_tests_cant": "the cut is decided by remainders of lengths; only a proof covers all remainders", "anchors": ["theanolm/parsing/batchiterator.py:BatchIterator._read_sequence", "theanolm/parsing/batchiterator.py:BatchIterator.__next__"]}
{"id": "C07", "title": "A shuffled epoch is a permutation of the corpus", "statement": "With sampling fraction 1 for each file an epoch of the shuffling iterator presents each line of the training files exactly once, in some order; with other fractions it presents round(fraction * lines) lines of each file, none of them twice unless the fraction exceeds 1, and all drawn from that file.", "quantifier": "every corpus, every list of fractions and every outcome of the random generator", "why_tests_cant": "the order is random: a test sees one permutation of n! and cannot rule out a duplicate or a loss under another", "anchors": ["theanolm/parsing/shufflingbatchiterator.py:ShufflingBatchIterator.__init__", "theanolm/parsing/shufflingbatchiterator.py:ShufflingBatchIterator._reset", "theanolm/parsing/shufflingbatchiterator.py:SentencePointers"]}
{"id": "C08", "title": "Saved data position resumes the epoch", "statement": "Storing the iterator state at any point between mini-batches and restoring it into a fresh iterator over the same files makes the fresh iterator return the sequences the original would have returned for the rest of the epoch, except the remaining pieces of a sentence that was being cut at that point; without a maximum length, or when no sentence is being cut, the mini-batches are exactly the same. (The expectation that this holds in the middle of a cut sentence is false: the refuted theorem gives a counterexample.)", "quantifier": "every corpus, batch size, maximum length, order and every point of the epoch at which the state is saved", "why_tests_cant": "the property quantifies over every interruption point; tests check one or two", "anchors": ["theanolm/parsing/shufflingbatchiterator.py:ShufflingBatchIterator.get_state", "theanolm/parsing/shufflingbatchiterator.py:ShufflingBatchIterator.set_state", "theanolm/parsing/shufflingbatchiterator.py:ShufflingBatchIterator._readline"]}
{"id": "C09", "title": "Word and ID maps are inverse", "statement": "In a vocabulary read from a file or built from word counts, every word has exactly one ID, IDs are 0..n-1, looking up the word of an ID and the ID of that word are inverse, <s>, </s> and <unk> are always present, unknown words map to the ID of <unk>, and IDs below the shortlist size are exactly the shortlist words.", "quantifier": "every vocabulary file in each of the three formats, every out-of-shortlist word list and every table of word counts that is accepted", "why_tests_cant": "all formats, orders, duplicates and special tokens combine; the ID is what every other component indexes with", "anchors": ["theanolm/vocabulary/vocabulary.py:Vocabulary.from_file", "theanolm/vocabulary/vocabulary.py:Vocabulary.from_word_counts", "theanolm/vocabulary/vocabulary.py:Vocabulary.words_to_ids", "theanolm/vocabulary/vocabulary.py:_add_special_tokens"]}
{"id": "C10", "title": "Classes partition the shortlist", "statement": "Every shortlist word belongs to exactly one class, the class that the ID-to-class table names; class IDs are 0..k-1 with no empty class; words get equal class IDs exactly when the vocabulary file puts them into the same class; <s>, </s> and <unk> get classes of their own unless the file assigns them.", "quantifier": "every accepted vocabulary file and every table of word counts", "why_tests_cant": "class numbering is by first appearance and by round robin; errors show only for particular interleavings", "anchors": ["theanolm/vocabulary/vocabulary.py:Vocabulary.__init__", "theanolm/vocabulary/vocabulary.py:Vocabulary.from_file", "theanolm/vocabulary/wordclass.py:WordClass"]}
{"id": "C11", "title": "Class membership probabilities are distributions", "statement": "After construction, and after recomputing probabilities from any word counts, the membership probabilities of the words in each class are non-negative and sum to one.", "quantifier": "every accepted vocabulary with non-negative weights whose class sums are positive, every word count table (including words that are missing or unknown)", "why_tests_cant": "the normalisation must hold for every class for every count table, including all-zero classes", "anchors": ["theanolm/vocabulary/wordclass.py:WordClass.normalize_probs", "theanolm/vocabulary/vocabulary.py:Vocabulary.compute_probs", "theanolm/vocabulary/vocabulary.py:Vocabulary.get_class_memberships"]}
{"id": "C12", "title": "Frequency classes are balanced and complete", "statement": "A vocabulary built from word counts with N classes contains every counted word, assigns the words in ascending count order to classes round robin so that the sizes of two classes differ by at most one, and uses min(N, number of words) classes for them.", "quantifier": "every word count table and every N >= 1 (or none)", "why_tests_cant": "balance is an arithmetic property for all table sizes and N", "anchors": ["theanolm/vocabulary/vocabulary.py:Vocabulary.from_word_counts"]}
{"id": "C13", "title": "Out-of-shortlist probabilities complete the distribution", "statement": "The out-of-shortlist weights are one for shortlist words and sum to one over the out-of-shortlist words, so that a model distribution over the shortlist becomes, after multiplying the <unk> probability by the weights, a distribution that sums to one over the shortlist words other than <unk> together with the out-of-shortlist words.", "quantifier": "every vocabulary, unigram counts giving positive mass to the out-of-shortlist words, and every model distribution", "why_tests_cant": "the identity is over all counts and distributions", "anchors": ["theanolm/vocabulary/vocabulary.py:Vocabulary.get_oos_probs", "theanolm/vocabulary/vocabulary.py:Vocabulary.compute_probs"]}
{"id": "C14", "title": "Vocabulary survives saving and loading", "statement": "Loading the vocabulary from a new state that a vocabulary was saved to, or from a state that it was saved over, gives (unless the old state held unigram probabilities that the vocabulary lacks) a vocabulary with the same words and IDs, the same classes, memberships and probabilities, the same shortlist size and the same unigram probabilities.", "quantifier": "every vocabulary that can be constructed", "why_tests_cant": "a round trip for all values, not for a fixture", "anchors": ["theanolm/vocabulary/vocabulary.py:Vocabulary.get_state", "theanolm/vocabulary/vocabulary.py:Vocabulary.from_state"]}
{"id": "C15", "title": "Corpus statistics count occurrences", "statement": "Word counts give for every word the number of its occurrences in the framed lines of all the files; bigram statistics give for each ordered pair of IDs the number of adjacent occurrences, with unknown words counted as <unk>; row sums equal the unigram counts except for sentence-final occurrences.", "quantifier": "every corpus and vocabulary", "why_tests_cant": "counting laws hold over all texts or not at all", "anchors": ["theanolm/vocabulary/statistics.py:compute_word_counts", "theanolm/vocabulary/statistics.py:BigramStatistics"]}
{"id": "C16", "title": "Merging subwords conserves the score", "statement": "Merging subword tokens into words by prefix/affix markers yields words whose subword lists concatenate to the original tokens and whose log probabilities add up to the sum of the token log probabilities. Merging by word boundary tokens keeps the other tokens (a word with <unk> in it becomes <unk>) and the sum of the log probabilities, except those of boundary tokens that end an empty word. So the reported total does not depend on the merging when there is no empty word and every token has a probability. (The expectation that boundary merging always conserves the score is false: the refuted theorem gives a counterexample.)", "quantifier": "every token sequence and every list of log probabilities, including unknown scores", "why_tests_cant": "merging is a small automaton over token shapes; all sequences of shapes matter", "anchors": ["theanolm/commands/score.py:_merge_subwords"]}
{"id": "C17", "title": "Perplexity totals are additive", "statement": "The log probability that scoring a text accumulates is the sum of the log probabilities of all the scored words, independently of how the text is cut into mini-batches; the number of scored words, unknown words and sentences likewise; the normalised value is that sum divided by the number of words with a probability.", "quantifier": "every text, every batch partition, every unknown-word policy", "why_tests_cant": "independence of the batch partition quantifies over all partitions", "anchors": ["theanolm/scoring/textscorer.py:TextScorer.compute_perplexity", "theanolm/scoring/textscorer.py:TextScorer.score_batch", "theanolm/commands/score.py:_score_text"]}
{"id": "C18", "title": "Unknown-word policy", "statement": "Scoring a text leaves exactly the words without a score that the options name: none by default; <unk> and the out-of-shortlist words with --exclude-unk; only <unk> when the <unk> probability is distributed among the out-of-shortlist words. Words without a score enter neither the total nor the number of words it is divided by, and the scores of the other words do not depend on the exclusion.", "quantifier": "every vocabulary, every sequence, and every choice of use_shortlist and exclude_unk", "why_tests_cant": "three policies over all positions of unknown words", "anchors": ["theanolm/scoring/textscorer.py:TextScorer.score_batch", "theanolm/scoring/textscorer.py:TextScorer.score_line", "theanolm/commands/score.py:_score_text"]}
{"id": "C19", "title": "Line-by-line scoring agrees with batch scoring", "statement": "The score of one line computed by the utterance scorer equals the sum of the word scores the mini-batch scorer returns for the line (except those of words with class membership probability zero); a blank line is skipped; a line with an out-of-shortlist word fails with an index error. (The expectation that such lines are scored like in a mini-batch is false: the refuted theorem gives a counterexample.)", "quantifier": "every line (including lines with unknown and out-of-shortlist words) and every unknown-word policy", "why_tests_cant": "two code paths must agree on all inputs", "anchors": ["theanolm/scoring/textscorer.py:TextScorer.score_line", "theanolm/scoring/textscorer.py:TextScorer.score_batch", "theanolm/commands/score.py:_score_utterances"]}
{"id": "C20", "title": "Lattice nodes are processed in topological order", "statement": "When sorting the nodes of a lattice returns an order, the order starts from the initial node and has no duplicates, every other node comes after all nodes that have a link to it, and of the nodes that can come next one with the earliest time is selected. The order contains exactly the nodes whose predecessors can all be ordered; for an acyclic lattice in which every node is reachable from the initial node, that means every node.", "quantifier": "every finite lattice (any number of nodes and links, parallel links, any time stamps or none)", "why_tests_cant": "graphs are unboundedly many; a wrong order silently drops hypotheses in decoding", "anchors": ["theanolm/scoring/lattice.py:Lattice.sorted_nodes"]}
{"id": "C21", "title": "Cyclic lattices are never ordered completely", "statement": "Sorting the nodes never returns a complete order for a lattice with a cycle. It reports an input error if and only if the initial node has a predecessor and all predecessors of the initial node can be ordered; no other error is raised. (The expectation that every lattice with a reachable cycle is rejected is false: the refuted theorem gives a counterexample, where a truncated order is returned.)", "quantifier": "every finite lattice", "why_tests_cant": "quantifies over all cyclic graphs and all tie-breaking by node times", "anchors": ["theanolm/scoring/lattice.py:Lattice.sorted_nodes"]}
{"id": "C22", "title": "Jobs partition the lattices", "statement": "When lattice processing is split to N jobs, each lattice is processed by exactly one job, relative order is kept within a job, and job sizes differ by at most one.", "quantifier": "every list of lattices, every N >= 1", "why_tests_cant": "covering all lists and all N", "anchors": ["theanolm/scoring/latticebatch.py:LatticeBatch.__init__"]}
{"id": "C23", "title": "A lattice archive is cut at blank lines", "statement": "Reading a Kaldi text archive yields one lattice for each utterance block, in order, with exactly the lines of the block.", "quantifier": "every archive content", "why_tests_cant": "all block lengths, leading/trailing/multiple blank lines", "anchors": ["theanolm/scoring/latticebatch.py:LatticeBatch.__iter__", "theanolm/scoring/kaldilattice.py:KaldiLattice.__init__"]}
{"id": "C24", "title": "SLF lattices survive writing and reading", "statement": "Writing a lattice in SLF format and reading it back gives the same nodes, times, links, words, scores, scales, utterance and initial and final node (only FST transitions are not kept), provided that words have no whitespace, quotes, backslashes or hashes, the utterance is set and has no quotes, and the final node is the only node that no link leaves. Any file that can be read gives a consistent lattice with exactly one final node. (The expectation that every lattice survives is false: the refuted theorem gives counterexamples.)", "quantifier": "every lattice that meets the stated conditions, any number syntax that int() and float() read back exactly", "why_tests_cant": "round trip over all lattices", "anchors": ["theanolm/scoring/lattice.py:Lattice.write_slf", "theanolm/scoring/slflattice.py:SLFLattice"]}
{"id": "C25", "title": "Kaldi lattices survive writing and reading", "statement": "Writing lattices to a Kaldi text archive one after another and reading the archive gives as many lattices, each with the same utterance, initial node and outgoing links of each node, with the links to final nodes leading to one final node, so that the label sequences (words, scores, transitions) on the paths from the initial to a final node are the same; provided that words have vocabulary IDs below the vocabulary size, links have scores, links to final nodes have no words, and the initial node is the first one with outgoing links. (The expectation that words on links to final nodes or vocabularies with gaps in IDs survive is false: refuted theorems give counterexamples.)", "quantifier": "every list of lattices that meet the conditions", "why_tests_cant": "round trip over all lattices", "anchors": ["theanolm/scoring/lattice.py:Lattice.write_kaldi", "theanolm/scoring/kaldilattice.py:KaldiLattice.__init__"]}
{"id": "C26", "title": "A decoded hypothesis is a lattice path with its true score", "statement": "Every token that decoding returns corresponds to a path of the lattice from the initial to the final node: its words are the words of the path, its acoustic score is the sum of the acoustic scores of the links, its lattice LM score is the sum of theirs, its network score is the sum of the scores of its words given the preceding words, and its total is the documented weighted combination.", "quantifier": "every acyclic lattice, network, pruning option, recombination order, weights and scales", "why_tests_cant": "the invariant ranges over every path and every interleaving of propagation, recombination and pruning", "anchors": ["theanolm/scoring/latticedecoder.py:LatticeDecoder.decode", "theanolm/scoring/latticedecoder.py:LatticeDecoder._propagate", "theanolm/scoring/latticedecoder.py:LatticeDecoder._append_word", "theanolm/scoring/latticedecoder.py:Token"]}
{"id": "C27", "title": "Decoding without pruning finds the best path", "statement": "With beam and token limits off, log-linear interpolation and recombination that only merges hypotheses with equal histories, every word sequence of a path from the initial to a final node is returned with a total score at least that of the path, and the first token returned has the highest total score among all these paths.", "quantifier": "every acyclic lattice, every network, every weights and scales, hash without collisions on the lattice", "why_tests_cant": "optimality compares with every one of exponentially many paths", "anchors": ["theanolm/scoring/latticedecoder.py:LatticeDecoder.decode", "theanolm/scoring/latticedecoder.py:LatticeDecoder._prune", "theanolm/scoring/latticedecoder.py:LatticeDecoder._sorted_recombined_tokens"]}
{"id": "C28", "title": "Recombination keeps the best hypothesis of each history", "statement": "Recombining tokens keeps, for each hash of the recent history, exactly one token, one that no other token with that hash beats, and returns the kept tokens in descending order of total score; no token is invented or lost without a record. Decoding returns tokens in descending order of total score, no two of them with the same recent history.", "quantifier": "every list of tokens, every hash function and every recombination order", "why_tests_cant": "all orders of arrival, ties and histories", "anchors": ["theanolm/scoring/latticedecoder.py:LatticeDecoder._sorted_recombined_tokens", "theanolm/scoring/latticedecoder.py:Token.recompute_hash"]}
{"id": "C29", "title": "Pruning never loses the best hypothesis", "statement": "Pruning the tokens of a node keeps no more than the token limit, drops no token that is within the beam and within the limit, and keeps the best token of the node if the limit, divided according to the size of the lattice, is at least one; then decoding an acyclic lattice never runs out of tokens and fails only without a final node or for an infinite score. (The expectation that the best token is kept whatever relative pruning options are set is false: the refuted theorem gives a lattice and options with which decoding fails.)", "quantifier": "every set of tokens, every lattice and every combination of options", "why_tests_cant": "option combinations times token sets", "anchors": ["theanolm/scoring/latticedecoder.py:LatticeDecoder._prune"]}
{"id": "C30", "title": "Rescored lattice holds the surviving hypotheses", "statement": "If from each node of the original lattice there is only one way to each next word and no </s> links, the lattice built from the surviving tokens contains for each of them a path from the initial to the final node that spells the words of the token, whose acoustic scores add up to the acoustic score of the token and whose language model scores add up to its original plus its network score, except for the scores of null links at the end of the path. Every link of the new lattice is merged from original links, stems from a recombined token or goes to the final node. If there are no null links and no <s> links either, every path to the final node spells the words of a path of the original lattice. Building the lattice succeeds on what the decoder returns, if the recombination hash does not collide. (The expectation that no new word sequences appear is false when the lattice has null links: the refuted theorem gives a counterexample.)", "quantifier": "all lattices, networks, decoding options and hash functions", "why_tests_cant": "which hypotheses survive and are recombined depends on the scores; tests build a few lattices by hand", "anchors": ["theanolm/scoring/rescoredlattice.py:RescoredLattice.__init__", "theanolm/scoring/rescoredlattice.py:RescoredLattice._follow_words", "theanolm/scoring/rescoredlattice.py:_follow_word_from_node"]}
{"id": "C31", "title": "Decoder and text scorer give a sentence the same network score", "statement": "For words that both score with the network (text scoring does not exclude them, and the decoder does not replace their score with an unknown-word penalty), the network score of a word in the decoder and in text scoring contain the same class probability given the earlier words and the same share of out-of-shortlist words. Text scoring adds the log probability of the word in its class, and the decoder adds that of the previous word. Therefore the network score of a complete hypothesis that decoding returns, plus the log probability of </s> in its class, equals the log probability that text scoring gives to the same sentence, plus the log probability of <s> in its class; the two scores are equal when <s> and </s> have the same probability in their classes, for example when each is alone in its class. (The expectations that the scores of incomplete hypotheses are equal too, and that scores are equal also when </s> shares its class with another word, are false: the refuted theorems give counterexamples.)", "quantifier": "every word sequence, vocabulary with classes, and unknown-word policy", "why_tests_cant": "two implementations of the model score have to agree for all sentences", "anchors": ["theanolm/scoring/latticedecoder.py:LatticeDecoder._append_word", "theanolm/scoring/textscorer.py:TextScorer.score_batch", "theanolm/network/lstmlayer.py:LSTMLayer.create_structure"]}
{"id": "C32", "title": "Validation happens as often as requested", "statement": "In an epoch of n updates a task with frequency f is performed at the updates that complete a new f-th part of the epoch: min(f, n) times, the last time at the last update. The query whether the task is due within w updates holds exactly when it is scheduled now or at one of the w next updates. (The expectation that a model is saved when validation has been requested is false: with fewer updates between validations than samples are collected for one validation, every validation is ignored and nothing is saved; the refuted theorem gives a run.)", "quantifier": "every n >= 1, every frequency and every window", "why_tests_cant": "integer division boundary behaviour for all n, f", "anchors": ["theanolm/training/trainer.py:Trainer._is_scheduled"]}
{"id": "C33", "title": "The kept model is the best so far", "statement": "The model is saved at a validation exactly when the cost is more than 0.1 % better than the candidate cost (or there is none). The candidate cost is always the last such cost, or the one training started with; it never increases, and no validation was more than 0.1 % better. The file always holds its initial contents or a complete state in which the training was earlier, with a cost history that ends in the candidate cost. A validation point that comes d updates after the previous one has as its cost the median of the perplexities after the last s of those updates, and the state saved is that after update d - s/2; if d < s the validation is ignored and nothing changes. Training raises no exception other than from the iterator.", "quantifier": "every sequence of validation costs and every patience", "why_tests_cant": "quantifies over every cost history", "anchors": ["theanolm/training/trainer.py:Trainer._validate", "theanolm/training/trainer.py:Trainer._has_improved", "theanolm/training/trainer.py:Trainer._set_candidate_state"]}
{"id": "C34", "title": "Annealing follows the patience rule", "statement": "The validation costs alone decide the outcome of each validation: the learning rate is halved exactly when more than patience validations without improvement have followed each other since the last improvement or annealing (and patience is not negative). The learning rate is the initial one halved as many times. When it is halved, the network, the optimizer, the epoch and update numbers and the cost history become those of the saved model, and the saved position is given to the iterator of the training data (C68 says what it then reads).", "quantifier": "every validation cost history and patience", "why_tests_cant": "all histories", "anchors": ["theanolm/training/trainer.py:Trainer._validate", "theanolm/training/trainer.py:Trainer._decrease_learning_rate", "theanolm/training/trainer.py:Trainer._reset_state"]}
{"id": "C35", "title": "Training stops when the stopping rule says so", "statement": "A mini-batch is processed only if the epoch number does not exceed the maximum and the stopping criterion is not met or the epoch number does not exceed the minimum; training ends only if one of these fails; an epoch ends when the data runs out or the criterion is met. Training always terminates without annealing, and also with annealing if the criterion is not the epoch count and the minimum number of epochs has been passed at the start. (The expectation that the maximum number of epochs bounds the length of training is false: annealing resets the epoch number; the refuted theorem gives a run that repeats forever.)", "quantifier": "every history of validations, every stopper setting", "why_tests_cant": "termination bound over all histories", "anchors": ["theanolm/training/stoppers.py:BasicStopper", "theanolm/training/stoppers.py:NoImprovementStopper", "theanolm/training/stoppers.py:AnnealingCountStopper", "theanolm/training/trainer.py:Trainer.train"]}
{"id": "C36", "title": "Training resumes from the saved state", "statement": "Initializing training from a state file gives the saved parameters, optimizer state, learning rate, iterator position, epoch and update numbers and cost history, or IncompatibleStateError when something is missing. With an iterator whose position is restored exactly (C68 is about the iterator that is used), training resumed from the state that was saved at a validation does the remaining updates and is then in the same state as the interrupted one was after the validation, and with the epoch count as stopping criterion ends with the same model, saved state and costs. (Two expectations are false: training without validation that is resumed repeats the last epoch instead of being finished, and a learning rate that was decreased after the last improvement is lost; the refuted theorems give the runs.)", "quantifier": "every training state and every saving point", "why_tests_cant": "all saving points", "anchors": ["theanolm/training/trainer.py:Trainer.initialize", "theanolm/training/trainer.py:Trainer.get_state", "theanolm/training/trainer.py:Trainer._reset_state", "theanolm/training/trainer.py:Trainer.train"]}
{"id": "C37", "title": "Parameter state round trip", "statement": "Adding a parameter is refused exactly when the path is already in use, and otherwise adds the parameter and nothing else. Saving the parameters to a model file succeeds exactly when every dataset that already exists at one of the paths has the same shape as the parameter and is not a scalar; it then stores every parameter and leaves the datasets of other paths as they are. Restoring succeeds exactly when the file has every parameter with the same number of dimensions, and then every parameter has the stored value; the error that says the state is incompatible means that some parameter is missing from the file. Saving a network, its optimizer and the learning rate and restoring them into any network and optimizer of the same structure gives the saved ones. (The expectations that a failed restore changes nothing, that the sizes of the arrays are checked, and that a state can always be saved again over itself are false: the refuted theorems give counterexamples. A scalar dataset, such as Adam's time step, cannot be saved again.)", "quantifier": "every set of parameters and every stored state", "why_tests_cant": "all parameter sets", "anchors": ["theanolm/backend/parameters.py:Parameters"]}
{"id": "C38", "title": "Gradient normalisation bounds the update", "statement": "When a maximum gradient norm M is given, the gradients are all multiplied by a common factor between zero and one, so their norm becomes at most M and at most what it was. If the norm is greater than M, the result has a norm of at least M times one minus the ratio of epsilon to the norm; if the norm is at most M, no element changes by more than epsilon. Consequently with plain gradient descent no element of the parameters moves more than learning rate times M in an update, and with momentum mu, starting from zero velocity, no element moves more than learning rate times M over (1 - mu) in any update of any history. (The expectation that gradients within the threshold are unchanged is false: the refuted theorem gives a counterexample.)", "quantifier": "every set of gradients and every positive threshold", "why_tests_cant": "an inequality over reals", "anchors": ["theanolm/training/basicoptimizer.py:BasicOptimizer._normalize"]}
{"id": "C39", "title": "Optimizers update their accumulators and weight the data", "statement": "An update succeeds for every mini-batch, and sets every parameter and every accumulator to the value that the method's published rule gives from the old values, the gradient and the learning rate. Over any history of mini-batches the accumulators are what the rules say: the sum of squared gradients for AdaGrad, and exponentially weighted sums for RMSProp with plain gradient descent, AdaDelta and Adam; Adam's correction makes the weights of the history sum to one. (Two expectations are false, as the refuted theorems show: the weights given to training files have no effect at all on the update, and RMSProp with Nesterov momentum does not average squared gradients, because the accumulator stays at its initial value one.)", "quantifier": "every sequence of gradients, every mini-batch composition and weight vector", "why_tests_cant": "holds for every gradient history", "anchors": ["theanolm/training/basicoptimizer.py:BasicOptimizer.__init__", "theanolm/training/rmspropnesterovoptimizer.py:RMSPropNesterovOptimizer._get_param_updates", "theanolm/training/adamoptimizer.py:AdamOptimizer._get_param_updates"]}
{"id": "C40", "title": "Training cost ignores padding", "statement": "When all log probabilities are finite and the mini-batch has some word to learn from, the cost is the mean of the negative log probabilities of the words that are not padding and not the excluded word, plus the weighted L1 and L2 penalties, and the reported number of words is the number of those words. Padding may be added, removed or changed in any way without changing the cost, as long as the log probabilities at the padded positions are finite. The cross entropy cost is a finite number exactly when some word counts and no position has probability zero, infinite exactly when a counted word has probability zero and no ignored position has, and otherwise NaN; with probabilities between zero and one it is not negative. (The expectations that padding never matters and that a mini-batch without counted words is harmless are false: the refuted theorems give counterexamples.)", "quantifier": "every mini-batch and network output", "why_tests_cant": "all shapes and values", "anchors": ["theanolm/training/cost.py:Cost.get_tensor", "theanolm/training/cost.py:CrossEntropyCost"]}
{"id": "C41", "title": "Class statistics stay exact under moves", "statement": "Creating the class optimizer fails exactly when there are no unigram or no bigram counts. After any sequence of word moves the class, class-class, class-word and word-class counts kept by the bigram optimizer equal those counted from scratch for the current word-to-class assignment, which is the initial one with the moves made. A move always succeeds with the Theano optimizer, and succeeds with the NumPy optimizer exactly when the word has some other word both before and after it in the corpus. The membership probabilities of the words of a class that occurs sum to one.", "quantifier": "every corpus statistics, every initial assignment and every sequence of moves", "why_tests_cant": "incremental updates must be exact along every history", "anchors": ["wordclasses/numpybigramoptimizer.py:NumpyBigramOptimizer._move", "wordclasses/bigramoptimizer.py:BigramOptimizer._compute_class_statistics"]}
{"id": "C42", "title": "Evaluated gain equals the change of the log likelihood", "statement": "The reported log likelihood is that of the class bigram model. The gain that the optimizer computes for moving a word to another class is a number only under conditions that are stated exactly for both implementations, and then it equals the log likelihood after the move minus the log likelihood before. The conditions: the old class keeps some occurrences and the new class has some; with NumPy every one of the eight vectors of counts between the old or new class and the remaining classes has a nonzero element; with Theano the counts between the old and new class, in both directions and within the classes, are all nonzero before and after the move.", "quantifier": "every statistics, assignment, word and target class", "why_tests_cant": "an algebraic identity over all count tables; approximations or a missing correction term show only for special tables", "anchors": ["wordclasses/numpybigramoptimizer.py:NumpyBigramOptimizer._evaluate", "wordclasses/numpybigramoptimizer.py:NumpyBigramOptimizer.log_likelihood"]}
{"id": "C43", "title": "Class optimization is monotone and terminates", "statement": "A call that moves a word strictly increases the log likelihood, and moves the word to the best of the classes whose gain is a number. A class is never emptied and special tokens keep their classes. For every corpus both optimizers finish without an exception after at most C^n passes over the words (n words, C classes), and in the end no word can be moved to a class whose gain is a number so that the likelihood would increase. (The expectation that the result is a local optimum is false for both implementations: the refuted theorem gives a corpus where nothing is moved although a move would increase the likelihood, because its gain is masked or NaN.)", "quantifier": "every corpus and every initial assignment", "why_tests_cant": "termination and monotonicity along every run", "anchors": ["wordclasses/bigramoptimizer.py:BigramOptimizer.move_to_best_class", "wordclasses/bigramoptimizer.py:BigramOptimizer._find_best_move", "wordclasses/wctool.py:main"]}
{"id": "C44", "title": "A sequence's score does not depend on its mini-batch", "statement": "The distributions that a network with forward recurrent, feed-forward, highway, addition, projection and convolution layers predicts after each word of a sequence are the same whichever other sequences share the mini-batch and however much padding is added; in particular they are those of the sequence evaluated alone. With bidirectional layers the other sequences make no difference either, if the sequence is padded to the same length. (The expectation that padding makes no difference with bidirectional layers is false: the refuted theorem gives a counterexample.)", "quantifier": "every network architecture, parameters, sequence and mini-batch", "why_tests_cant": "all batches around a sequence", "anchors": ["theanolm/network/lstmlayer.py:LSTMLayer._create_time_step", "theanolm/network/grulayer.py:GRULayer._create_time_step", "theanolm/network/glulayer.py:GLULayer.create_structure"]}
{"id": "C45", "title": "Predictions do not look at the future", "statement": "With a unidirectional network the distribution predicted for a word depends only on the words before it. With bidirectional layers it does not depend on the word itself, if no layer that looks at other time steps is above or below a bidirectional layer. (The expectation that a network with bidirectional layers never sees the word that it predicts is false: the refuted theorem stacks a recurrent layer on a bidirectional one.)", "quantifier": "every network, every pair of sequences that agree up to a position", "why_tests_cant": "non-interference over all inputs", "anchors": ["theanolm/network/glulayer.py:GLULayer.create_structure", "theanolm/network/lstmlayer.py:LSTMLayer.create_structure", "theanolm/network/bidirectionallayer.py:BidirectionalLayer"]}
{"id": "C46", "title": "Stepwise evaluation equals mini-batch evaluation", "statement": "Feeding the words of a sequence one at a time, passing the recurrent state from step to step as text generation and lattice decoding do, gives the same output at every step as evaluating the whole sequence as a mini-batch. Networks with bidirectional, reversed or convolution layers refuse to be evaluated one step at a time.", "quantifier": "every network without bidirectional or convolution layers and every sequence", "why_tests_cant": "all lengths and states", "anchors": ["theanolm/network/lstmlayer.py:LSTMLayer.create_structure", "theanolm/network/grulayer.py:GRULayer.create_structure", "theanolm/network/recurrentstate.py:RecurrentState"]}
{"id": "C47", "title": "Splitting a layer to devices does not change it", "statement": "A parameter dimension can be split to any number of devices from one up to its size: it is cut into consecutive parts that cover it exactly, with sizes that differ by at most one; other numbers of devices are refused. Two networks created from the same layers and initial values on different devices compute the same probabilities and recurrent states from every input, if gated linear units and hierarchical softmax are on the default device and softmax is not on exactly one named device. (The expectation that every layer works on named devices is false: the refuted theorems show that no input can be evaluated in the three excluded cases.)", "quantifier": "every parameter size and every number of devices up to the size", "why_tests_cant": "all sizes and device counts", "anchors": ["theanolm/network/basiclayer.py:BasicLayer._split_per_device", "theanolm/network/basiclayer.py:BasicLayer._tensor_preact", "theanolm/network/basiclayer.py:BasicLayer._tensor_conv1d"]}
{"id": "C48", "title": "Hierarchical softmax factorisation fits", "statement": "For every number of classes from one, the two level sizes satisfy the conditions asserted in the constructor: they are equal or the first is one larger, their product covers the classes, and neither level could be one smaller. The probability that softmax or hierarchical softmax computes for a target class is the one that it has in the distribution over all the classes.", "quantifier": "every output size >= 1", "why_tests_cant": "an arithmetic fact over all sizes", "anchors": ["theanolm/network/hsoftmaxlayer.py:HSoftmaxLayer.__init__"]}
{"id": "C49", "title": "Recurrent state batching", "statement": "A new recurrent state is all zeros. Setting a state succeeds exactly when there is one array of the right shape for every layer variable and otherwise raises ValueError. Combining states of the same layers gives their sequences one after another; extracting the i-th of n combined single-sequence states gives the i-th state back, and one step of the network on the combined state gives each hypothesis the distribution and new state that it would have got alone.", "quantifier": "every list of states, every network layout", "why_tests_cant": "round trip over all states", "anchors": ["theanolm/network/recurrentstate.py:RecurrentState"]}
{"id": "C50", "title": "Architecture survives saving and loading", "statement": "Saving an architecture again over its own state changes nothing. Loading a saved architecture always succeeds and gives the same options, the same layers in the same order and the same output layer; the inputs, and the elements of each list, come back in the order of their numbers written as strings, so with at most ten of each the loaded architecture is the same one and is accepted by the check. Checking an architecture against the state of another succeeds exactly when everything in the former is found, at the same number, in the latter, in particular for architectures with the same option names and numbers exactly when they are equal; otherwise IncompatibleStateError or KeyError is raised. (The expectation that every architecture can be loaded back, and that the check tells any two architectures apart, is false: a layer with eleven inputs is loaded with its inputs reordered and rejected by the check, and the state of a network with additional layers is accepted.)", "quantifier": "every architecture description", "why_tests_cant": "round trip for all descriptions", "anchors": ["theanolm/network/architecture.py:Architecture.from_state", "theanolm/network/architecture.py:Architecture.get_state", "theanolm/network/architecture.py:Architecture.check_state"]}
{"id": "C51", "title": "Generated text has the requested shape", "statement": "Text generation returns the requested number of sequences. If the requested length is L >= 1, each sequence is <s>, the words of the seed and L - 1 generated words of the vocabulary. Each generated word belongs to the class that was drawn from the distribution that the network gives after the earlier words of that sequence, whatever the other sequences are. Generation succeeds when the seed words are in the shortlist, and fails when one of them is not, or when L = 0 and there is a seed. The sample command prints each sequence up to and including the first </s>. (The expectation that L words are generated after the seed is false: the refuted theorem gives a counterexample.)", "quantifier": "every vocabulary, seed, length, number of sequences and every outcome of sampling", "why_tests_cant": "random outcomes are unbounded", "anchors": ["theanolm/textsampler.py:TextSampler.generate", "theanolm/commands/sample.py:sample"]}
{"id": "C52", "title": "Class unigram distribution", "statement": "The unigram probability of a class is the sum of the unigram probabilities of the words in it divided by the sum over the shortlist; if any shortlist word has been counted the values form a probability distribution over the classes.", "quantifier": "every vocabulary with unigram probabilities, whatever the classes and counts", "why_tests_cant": "ranges over all vocabularies and count tables", "anchors": ["theanolm/vocabulary/vocabulary.py:Vocabulary.get_class_probs", "theanolm/vocabulary/vocabulary.py:Vocabulary.compute_probs"]}
{"id": "C53", "title": "Word score report", "statement": "The word-level report of a text has one entry for each word after the first of each sentence, in order, with that word, its up to three predecessors, a mark exactly when there are more than three predecessors, its log probability in the requested base, and for each part of the word whether it is in the shortlist, in the vocabulary or unknown; the cross entropy of a sentence is the mean of its known log probabilities; a sentence without any known log probability makes the command fail.", "quantifier": "every text, vocabulary, subword marking, log base, batch size and every unknown-word policy", "why_tests_cant": "history windows and sentence ends interact for every sentence length", "anchors": ["theanolm/commands/score.py:_write_word_scores", "theanolm/commands/score.py:_score_text"]}
{"id": "C54", "title": "Words on SLF nodes are moved to links", "statement": "When an SLF lattice has words on its nodes, each link that can be reached from the initial node gets the word of its end node, other links are kept, and an input error is reported if and only if a reachable link and its end node both have a word. Moving the words visits each link once, however many paths there are.", "quantifier": "every lattice graph, including cyclic graphs and graphs with unreachable nodes", "why_tests_cant": "the traversal order and the shape of the graph are unbounded", "anchors": ["theanolm/scoring/slflattice.py:SLFLattice._move_words_to_links", "theanolm/scoring/slflattice.py:SLFLattice.__init__"]}
{"id": "C55", "title": "SLF lattice contents", "statement": "Reading an SLF file gives a lattice with as many nodes and links as the header says. Node times and words are those of the node lines, links follow the link lines in order with their start and end nodes and words, and the log scores are multiplied by the logarithm of the base given in the header; when a field is given many times, the last one counts. The initial node is the one that the header names or the first node without incoming links, and the final nodes are those that the header names or those without outgoing links.", "quantifier": "every SLF file", "why_tests_cant": "file contents and their order are unbounded", "anchors": ["theanolm/scoring/slflattice.py:SLFLattice.__init__", "theanolm/scoring/slflattice.py:SLFLattice._read_slf_header"]}
{"id": "C56", "title": "Kaldi lattice reading", "statement": "A Kaldi lattice without negative state numbers can be read exactly when every nonblank line after the first one is an arc (a state, a state, a word ID and a weight) or a final weight (a state and optionally a weight). The links of the lattice are then the arcs in order with their words and negated costs, final weights being links to one final node, and the initial node is the state on the first of the lines. A Kaldi word list can be read exactly when every nonblank line has a word and an integer, and a word has the ID that is on the last of its lines.", "quantifier": "every Kaldi lattice and word list", "why_tests_cant": "file contents and their order are unbounded", "anchors": ["theanolm/scoring/kaldilattice.py:KaldiLattice.__init__", "theanolm/scoring/kaldilattice.py:read_kaldi_vocabulary"]}
{"id": "C57", "title": "Sampling-based training objectives", "statement": "The noise-contrastive estimation objective at each position is the log probability that a classifier, which knows the network's score and the noise probability of each word, tells the target to be from the data and every sample to be from noise. It is negative, increases with the score of the target and decreases with the score of each sample. The BlackOut objective is the logarithm of the target's share plus the logarithms of one minus the share of each sample, where the shares are positive, sum to one, and are proportional to exp(score) divided by the prior probability. (The expectation that the stability term prevents numerical problems is false for BlackOut: a zero prior probability makes the objective NaN.)", "quantifier": "every score, every prior distribution, every number and choice of noise samples", "why_tests_cant": "identities and inequalities over real numbers for every number of samples", "anchors": ["theanolm/training/cost.py:NCECost._get_logprobs", "theanolm/training/cost.py:BlackoutCost._get_logprobs"]}
{"id": "C58", "title": "Word statistics and the saving schedule of wctool", "statement": "The unigram and bigram counts that wctool starts from are the numbers of occurrences of words and of adjacent pairs of words on the lines of the corpus, counting the sentence start and end symbols and never a pair that spans two lines. When classes are to be saved f times in a pass over W words and f is at most W, they are saved floor(k f / W) times by the time k words have been processed, so exactly f times in the pass.", "quantifier": "every corpus, every number of words and every frequency", "why_tests_cant": "counting identities for every size", "anchors": ["theanolm/vocabulary/statistics.py:BigramStatistics", "wordclasses/functions.py:is_scheduled"]}
{"id": "C59", "title": "The output of a network is a distribution", "statement": "With softmax the output at every position is a probability distribution over the classes, in which every class gets a positive probability, except that the class of unknown words gets zero when unknown words are excluded. With hierarchical softmax every class gets a positive probability and the sum is at most one; it is one exactly when the number of classes is the product of the two level sizes. (The expectations that the probabilities of hierarchical softmax sum to one, and that excluding unknown words affects them, are false: the refuted theorems give counterexamples.)", "quantifier": "every network, every parameter value, every input, every number of classes", "why_tests_cant": "a sum over all classes for real-valued parameters; tests use a few sizes", "anchors": ["theanolm/network/softmaxlayer.py:SoftmaxLayer.create_structure", "theanolm/network/hsoftmaxlayer.py:HSoftmaxLayer.create_structure"]}
{"id": "C60", "title": "Architecture description files", "statement": "A description file whose layer lines have no field called inputs or devices is read successfully exactly when every line is blank, a comment, or an input or layer line of name=value fields with a type and a name, every layer has an input and every size is an integer, and there is at least one input and one layer. The result has the inputs and the layers in the order of the lines, each option with the last value given for it, the input and device fields of a layer collected in order, and the last layer as the output. Otherwise an InputError is raised, the error of the integer conversion, or an AttributeError (only when a layer has a field called inputs or devices, which replaces the list).", "quantifier": "every text file and every integer syntax", "why_tests_cant": "file contents and their order are unbounded", "anchors": ["theanolm/network/architecture.py:Architecture.from_description", "theanolm/network/architecture.py:Architecture.__init__"]}
{"id": "C61", "title": "Networks built from a description compute arrays of the right dimensions", "statement": "When building a network from an architecture description and a vocabulary succeeds, the network computes a probability for every class at every position of every mini-batch of shortlist words, and for every target class, if and only if projection layers read exactly one network input, the other layers read one or more layers that are not network inputs, and layers are on devices that they support (a gated linear unit and hierarchical softmax only on the default placement, softmax not on exactly one named device). Otherwise every computation fails. Without bidirectional, reversed and gated linear layers it can also be run one time step at a time, for any number of steps and sequences, and the state keeps its dimensions. All weights have as many rows as the layer has input features, and a layer reads only earlier layers. (The expectation that a description which names no devices works with a default device is false: the refuted theorem shows that every computation fails.)", "quantifier": "every description, vocabulary, initial parameter value, mini-batch, number of time steps and sequences", "why_tests_cant": "an induction over arbitrary layer graphs and sizes; tests use a few architectures", "anchors": ["theanolm/network/network.py:Network.__init__", "theanolm/network/network.py:create_layer", "theanolm/network/basiclayer.py:BasicLayer.__init__"]}
{"id": "C62", "title": "Scoring and decoding may use any unidirectional network", "statement": "A network that is built from a description with connected, supported layers and without bidirectional or reversed layers gives a sequence of shortlist words the same target probabilities in every mini-batch, whatever the other sequences and the padding are; so the perplexity of a text does not depend on the batch size. If the network can be run one time step at a time, every step of the lattice decoder succeeds, each hypothesis gets the probability and the recurrent state that it would get alone, and running through the words of a sequence from the initial state gives the probabilities that text scoring gives. So a complete hypothesis of the decoder whose words are all scored by the network has the total that text scoring gives to its words, when the sentence start and end symbols have the same class membership probability.", "quantifier": "every description, vocabulary, parameter value, mini-batch, lattice, set of decoding options and number of hypotheses", "why_tests_cant": "ranges over all architectures, all mini-batches and all lattices", "anchors": ["theanolm/scoring/textscorer.py:TextScorer.score_batch", "theanolm/scoring/latticedecoder.py:LatticeDecoder._append_word", "theanolm/network/network.py:Network", "theanolm/network/recurrentstate.py:RecurrentState"]}
{"id": "C63", "title": "The network of a description computes the equations of its layers", "statement": "When building a network from an architecture description succeeds, the network has the inputs and layers of the description in the same order, each with the described type, name, input layers, size, activation function and other options or their default values (the size of all inputs, or of the first one when inputs are added; tanh; a region of five time steps). If the layers are connected properly and placed on devices that they support, then in every mini-batch of shortlist words the probability of every class at every position is the one given by the textbook equations of the layers: table lookup, affine maps with an activation function, highway and gated linear units over the current and previous time steps, LSTM and GRU recurrences that skip padding (in a reversed layer, and in a bidirectional layer also, one that runs backwards and, at each time step, reads the input from two time steps later), sums, dropout, and the softmax or two-level softmax of the output layer, in which an excluded class of unknown words gets no probability.", "quantifier": "every description, vocabulary, parameter value, mini-batch, position and class, in any arithmetic", "why_tests_cant": "an induction over arbitrary layer graphs, sizes and sequence lengths; a wrong gate, offset or default is not visible in the dimensions of the result", "anchors": ["theanolm/network/network.py:Network.__init__", "theanolm/network/network.py:create_layer", "theanolm/network/lstmlayer.py:LSTMLayer.create_structure", "theanolm/network/grulayer.py:GRULayer.create_structure", "theanolm/network/highwaylayer.py:HighwayLayer.create_structure", "theanolm/network/glulayer.py:GLULayer.create_structure", "theanolm/network/bidirectionallayer.py:BidirectionalLayer", "theanolm/network/softmaxlayer.py:SoftmaxLayer.create_structure", "theanolm/network/hsoftmaxlayer.py:HSoftmaxLayer.create_structure"]}
{"id": "C64", "title": "A saved language model is loaded as it was", "statement": "When a network that was built from a description, with any values of its parameters, is saved with its vocabulary to a file that has no language model yet, and saved there again any number of times with other values, saving succeeds, and loading the file with the same default device gives the same vocabulary and the same architecture, and exactly the network that was saved last: all parameter values, and so the probabilities of every mini-batch and of every time step, are equal. This does not depend on the random initial values when the model is loaded. It needs layer names without a slash, and no more than ten inputs and ten elements in any list of the description; with more, loading fails or gives the same network, never another one. Continuing training, where the network is built from the description again, gives the same network, and other data in the file stays there. (The expectations that layer names may contain slashes, that a layer may have more than ten inputs, and that the default device may be another one when the model is loaded, are false: the refuted theorems give counterexamples.)", "quantifier": "every description, vocabulary, parameter value, initial value, other content of the file and number of earlier saves", "why_tests_cant": "ranges over all architectures and all parameter values; a collision of two parameter names shows only in particular descriptions", "anchors": ["theanolm/network/network.py:Network.get_state", "theanolm/network/network.py:Network.set_state", "theanolm/network/network.py:Network.from_file", "theanolm/vocabulary/vocabulary.py:Vocabulary.from_state", "theanolm/network/architecture.py:Architecture.from_state", "theanolm/backend/parameters.py:Parameters", "theanolm/network/networkinput.py:NetworkInput"]}
{"id": "C65", "title": "Noise sampling for the sampling-based training objectives", "statement": "For a network that is built from a description with connected, supported layers, a softmax output layer and at most one device, the unnormalized log probability of every target class is the affine score of the class at that position, before softmax; exponentials of the scores divided by their sum over the classes are the probabilities of the network. Whichever way noise is shared (for each position, each time step, or the whole mini-batch), k classes that were drawn are used at every position, and their log probabilities are their scores at that position. The noise distribution can be uniform, log-uniform, or the unigram distribution raised to a power, and otherwise a ValueError is raised; its probabilities are not negative and sum to one. Uniform and log-uniform samples are drawn with exactly the probability that the objectives use; unigram samples are distinct. The noise-contrastive estimation and BlackOut objectives at every position are their formulas of these scores and noise probabilities. With hierarchical softmax or several devices the objectives fail. (The expectation that the k noise classes of a position are distinct, as documented, is false for uniform and log-uniform noise, and the expectation that k unigram samples can be drawn whenever there are k classes is false when noise is shared between sequences: the refuted theorems give counterexamples.)", "quantifier": "every description, vocabulary, parameter value, mini-batch, noise distribution, number of samples, way of sharing and random numbers", "why_tests_cant": "ranges over all networks, mini-batches and random numbers; a wrong index or a wrong noise probability only biases training", "anchors": ["theanolm/network/samplingoutputlayer.py:SamplingOutputLayer", "theanolm/network/network.py:Network.set_sampling", "theanolm/network/network.py:Network.noise_sample", "theanolm/network/network.py:Network.unnormalized_logprobs", "theanolm/backend/classdistribution.py:UniformDistribution", "theanolm/backend/classdistribution.py:LogUniformDistribution", "theanolm/backend/classdistribution.py:MultinomialDistribution", "theanolm/training/cost.py:NCECost", "theanolm/training/cost.py:BlackoutCost"]}
{"id": "C66", "title": "Which architecture descriptions a network can be built from", "statement": "For descriptions whose layers have different names and whose last layer is the only output layer, building a network succeeds exactly when: every input is a word or class input; every other layer has a known type (projection, fc or tanh, add, lstm, gru, blstm, bgru, highway or highwaytanh, glu, dropout; softmax or hsoftmax for the last layer), a known activation function if any, and inputs that are described before it; sizes are non-negative numbers and filter sizes positive ones; highway and dropout layers have as many outputs as inputs, a glu layer has one input, and an add layer without a size has at least one; the vocabulary has an unknown word (softmax) or at least one class (hsoftmax); and, when devices are used, no device is listed twice for a layer, and every array that is divided has at least one column for every device (for a bidirectional layer, in both directions), while hsoftmax uses at most one device. If the layers are also connected properly and placed on devices that they support, the network that is built gives probabilities of the right dimensions for every mini-batch of shortlist words.", "quantifier": "every description, vocabulary, default device and initial parameter value", "why_tests_cant": "ranges over all architectures; examples cannot show that nothing else is rejected or accepted", "anchors": ["theanolm/network/network.py:Network.__init__", "theanolm/network/network.py:create_layer", "theanolm/network/network.py:Network._layer_options_from_description", "theanolm/network/basiclayer.py:BasicLayer.__init__", "theanolm/network/basiclayer.py:BasicLayer._init_weight", "theanolm/backend/parameters.py:Parameters.add"]}
{"id": "C67", "title": "The decode command writes the best hypotheses of every lattice of the job", "statement": "The decode command exits without output if a Kaldi vocabulary is needed and not given, and otherwise either an argument is invalid and nothing is written, or the lattices of the job are processed in order. With text output, it writes for every lattice at most N complete paths, best first, as lines with the utterance ID and the words between <s> and </s> (and acoustic, graph and total log probabilities in base B and the number of words, with full output); the lines are different hypotheses to recombination, and when nothing is pruned and hashes do not collide, the best path of every word sequence is ranked. The fields of a line can be split at white space. If it stops with an exception, the lattice whose turn it was could not be read or decoded, and all lines of the earlier ones have been written. If all lattices have an utterance ID (Kaldi lattices always do), then n jobs finish if and only if one job that processes everything does, and write the same output together. With SLF output every lattice is written as the rescored lattice, which reads back with the same links, the utterance ID, and the scale and penalty that were given as arguments. The limits of relative pruning have no effect. (The expectation that utterances without an ID get different IDs in different jobs is false: the refuted theorem gives a counterexample. So is the expectation that the scale and penalty in a rescored lattice are those that were used in decoding: without --lm-scale the scale of the lattice is not copied, and a penalty in base B is written as if it were a natural logarithm. A negative N leaves out the N worst hypotheses.)", "quantifier": "every set of arguments, lattice files, vocabulary, network and number of jobs", "why_tests_cant": "ranges over all lattices, their order and division to jobs, and where an exception happens", "anchors": ["theanolm/commands/decode.py:decode", "theanolm/commands/decode.py:format_token", "theanolm/scoring/latticebatch.py:LatticeBatch.__iter__", "theanolm/scoring/latticebatch.py:LatticeBatch.__init__", "theanolm/scoring/rescoredlattice.py:RescoredLattice", "theanolm/scoring/lattice.py:Lattice.write_slf"]}
{"id": "C68", "title": "Training on the sentences of the training files", "statement": "With non-empty training files and sampling fractions that are not negative, the trainer expects ceil(s/b) updates in an epoch, where s is the number of sequences in all the files and b is the mini-batch size, and it refuses data with no sequences. Every epoch is a new sample of the requested number of sentences of every file in a random order, divided into mini-batches; without sampling, every epoch has exactly the expected number of updates and every sentence once, and an epoch of m updates has floor(m f / n) validation points when n are expected and f are requested. As long as something is sampled, training raises no exception, and it ends if it never goes back to the saved model, or if it is let end by a criterion other than the number of epochs after the minimum number of epochs. When training continues in another process from the model that was saved at a validation, and no sentence is cut, it gets the same mini-batches for the rest of the epoch, and is after the updates that were left in the same state as the first process at the validation; it ends with the same model, saved state and costs, if the epoch count is the stopping criterion and the same orders are drawn for the later epochs. When the learning rate is decreased after a full mini-batch, training continues with the sentences that follow the saved position, preceded by what is left of a sentence that was being cut. (Several expectations are false, and the refuted theorems give counterexamples: when the learning rate is decreased after an incomplete mini-batch, the rest of the epoch of the saved model is skipped; with a maximum sequence length, a part of an abandoned sentence is read first; the number of expected updates ignores sampling, so that with a small sampling fraction no validation is ever done and no model is saved; and another process draws other orders for the epochs after the first one.)", "quantifier": "every set of training files, sampling fractions, mini-batch size, maximum sequence length, random generator, history of validation costs and saving point", "why_tests_cant": "ranges over all data, random orders, interleavings of validations with the position in the data and crash points", "anchors": ["theanolm/training/trainer.py:Trainer.__init__", "theanolm/training/trainer.py:Trainer.train", "theanolm/training/trainer.py:Trainer._reset_state", "theanolm/parsing/shufflingbatchiterator.py:ShufflingBatchIterator.set_state", "theanolm/parsing/shufflingbatchiterator.py:ShufflingBatchIterator._reset", "theanolm/parsing/batchiterator.py:BatchIterator.__next__"]}
{"id": "C69", "title": "What any sequence of train commands leaves in the model file", "statement": "Let train commands be run one after another on the same model path, starting without a model file, with the same network architecture; each with its own training files and other options, and each possibly refused, ended by an exception or interrupted between any two steps of its training (an interrupt inside a save is the subject of C71). The vocabulary in the file is that of the first command that could make one, and no later command changes it: without a vocabulary file, the words of that command's training files and the special tokens, each once, in at most the requested number of classes besides those of the special tokens, with the relative frequencies of the words; with a vocabulary file, the words of that file are the shortlist, the other words of the training files follow it, and the unigram probabilities are relative frequencies in the training files, with the start and end tags. A vocabulary without unigram probabilities, from a file of an earlier version, is extended by the new words once. A command exits with an error exactly if there are more noise samples than classes or more weights or sampling fractions than training files, and then changes nothing if there was a vocabulary; missing weights are one. After any sequence of commands the file can be loaded as a language model, or nothing was trained; it has the network of the last command that saved one, as it was after some number of updates. The next command starts from the network that would be loaded, and from a new one if none would be. If a command that had a validation file reports a perplexity, it is that of the network that is in the file when it ends. (The expectations that a refused command has no effect on later ones, and that unigram probabilities are the same whether or not the words of the training files are given as a vocabulary file, are false: the refuted theorems give counterexamples. Without a vocabulary file the end of sentence has no unigram probability.)", "quantifier": "every sequence of commands, training data, options, random generators, optimizer updates, validation costs and points of interruption", "why_tests_cant": "ranges over all histories of commands and all points where a process may be killed", "anchors": ["theanolm/commands/train.py:_read_vocabulary", "theanolm/commands/train.py:train", "theanolm/training/trainer.py:Trainer.train", "theanolm/training/trainer.py:Trainer.get_state", "theanolm/network/network.py:Network.from_file", "theanolm/vocabulary/vocabulary.py:Vocabulary.from_state"]}
{"id": "C70", "title": "The score command confirms the perplexity that training reports", "statement": "Let any sequence of train commands be run on the same model path with the same unidirectional architecture, and let the last command report a best validation perplexity. If no validation sentence is longer than the maximum sequence length of that command, the score command with --shortlist and without --exclude-unk reports the same perplexity for the validation file, with any batch size and log base, whether or not the training used --exclude-unk. Every validation of a training reads the whole validation file: its perplexity is the exponential of the negative mean of the log probabilities of the predicted words, with the words outside the shortlist scored by their share of the probability of <unk>, and if any of them is minus infinity or not a number the validation raises an exception instead. Conversely, if the score command reports a perplexity and every predicted word has a positive probability, validation computes that perplexity. Whatever holds of every newly built network holds of every trained and loaded one: any values of the parameters are the initial values of some network. (The expectations that the score command confirms the perplexity with the same --exclude-unk option as in training, or without --shortlist, or when the training cuts sentences, and that a word of probability zero is treated alike, are false: the refuted theorems give counterexamples.)", "quantifier": "every sequence of commands, vocabulary, network parameters, validation file, batch sizes and options", "why_tests_cant": "ranges over all trained parameters, all texts and two different commands that share no code path for the perplexity", "anchors": ["theanolm/commands/train.py:train", "theanolm/commands/score.py:score", "theanolm/scoring/textscorer.py:TextScorer.compute_perplexity", "theanolm/scoring/textscorer.py:TextScorer.score_batch", "theanolm/parsing/linearbatchiterator.py:LinearBatchIterator", "theanolm/network/softmaxlayer.py:SoftmaxLayer.create_structure"]}
{"id": "C71", "title": "What killed and interrupted train commands leave in the model file", "statement": "Let train commands with the same network architecture be run one after another on the same model path, starting without a model file, each killed or interrupted at any point after it has read the vocabulary, also between any two write operations of a save. A command that is killed leaves the file as it was before the command, or as it would be had the command been interrupted between two steps of its training; so if commands are only killed, the file is what some sequence of commands that are not killed leaves, and everything that holds then (C69) holds. After any sequence of commands, killed or interrupted, there is nothing in the file, or it has a vocabulary that every later command uses and one of three is true: the next training starts with exactly the network that is loaded from the file; or it starts with a new network; or every later command ends with an error and leaves the file unchanged, for ever. An interrupt in a save with a validation file leaves, depending on the number of the write operations done (one deletes and the next one copies each group), the old network, the new network, or no network to be loaded, and after an odd number of them a file that cannot be trained further or, after the ninth, one where training starts over. An interrupt in a save without a validation file leaves the first parameters of the new network and the other parameters of the old one, which is loaded and trained without an error; if the file was new, training cannot start until everything has been written. (The expectation that an interrupted command leaves the old or the new state is false in three ways: the refuted theorems give counterexamples where no model can be loaded, where training silently starts over, and where the loaded network is a mixture.)", "quantifier": "every sequence of commands, every point where each is killed or interrupted, training data, options, random generators, optimizer updates and costs", "why_tests_cant": "ranges over all histories of commands and all crash points between the write operations of a save", "anchors": ["theanolm/commands/train.py:train", "theanolm/training/trainer.py:Trainer._set_candidate_state", "theanolm/training/trainer.py:Trainer.get_state", "theanolm/training/trainer.py:Trainer._reset_state", "theanolm/network/network.py:Network.get_state", "theanolm/network/network.py:Network.set_state", "theanolm/network/architecture.py:Architecture.get_state", "theanolm/training/basicoptimizer.py:BasicOptimizer.get_state"]}
{"id": "C72", "title": "Reading the class file that wctool writes", "statement": "Let wctool be run on training data, with or without a vocabulary. It finishes exactly when the method is known, the data has a word, and the vocabulary can be made. Written to a file in the classes format, the result can always be read as a vocabulary: it has the words of the optimized vocabulary with the same IDs, two words share a class exactly when the optimizer put them in one class, the number of classes is the same and the words of a class are equally probable. Written in the srilm-classes format, it can be read exactly when every class has a word that occurs in the training data; it then has the same classes, and the probability of a word in its class is its share of the occurrences of the class. With no vocabulary given, this means: exactly when <unk> occurs in the training data, and otherwise the train command fails on the file. On a stream that cannot be rewound the result can not be read when anything was written during the optimization, and otherwise is that of a file. (The expectation that the file written with the default options can be read by the train command is false: the refuted theorem gives a counterexample.)", "quantifier": "every training text, vocabulary, number of classes, method, output format and output frequency", "why_tests_cant": "ranges over all texts and all outcomes of the class optimization", "anchors": ["wordclasses/wctool.py:main", "wordclasses/wctool.py:save", "wordclasses/bigramoptimizer.py:BigramOptimizer.words", "wordclasses/bigramoptimizer.py:BigramOptimizer.get_word_prob", "wordclasses/functions.py:is_scheduled", "theanolm/vocabulary/vocabulary.py:Vocabulary.from_file", "theanolm/commands/train.py:train"]}
{"id": "C73", "title": "Generated text has the probability that scoring gives to it", "statement": "Let text be generated with a unidirectional network. A sequence is printed as a given sentence (words up to the first </s>, or as many words as are generated) exactly if certain random choices come out, one of a class and one of a word of the class at each time step after the seed. They depend only on the words before in the same sequence, not on the other sequences or their number, so the probability of the sentence is the product of the probabilities of the choices. The logarithms of the probabilities of the choices of a word are the class and membership log probabilities of which text scoring without --shortlist and --exclude-unk adds up the score of the word; and if all the choices are possible, the score of the line is the logarithm of the probability that it is generated. The probabilities of all the next words add up to the sum of the distribution of the network, which is one with a softmax output layer; the probabilities of all the continuations of any length then add up to one.", "quantifier": "every vocabulary, unidirectional architecture, network parameters, seed text, number and length of sequences, outcome of the random choices, and sentence of shortlist words", "why_tests_cant": "ranges over all sentences and all outcomes of the random number generators, and relates two commands that evaluate the network differently (one time step at a time, and as a padded mini-batch)", "anchors": ["theanolm/textsampler.py:TextSampler.generate", "theanolm/commands/sample.py:sample", "theanolm/scoring/textscorer.py:TextScorer.score_line", "theanolm/scoring/textscorer.py:TextScorer.score_batch", "theanolm/vocabulary/wordclass.py:WordClass.sample", "theanolm/vocabulary/vocabulary.py:Vocabulary.class_ids_to_word_ids"]}
{"id": "C74", "title": "All commands load the same network from a model file, and agree on the probability of a sentence", "statement": "After any number of train commands of the same model, each of which has ended, failed, or been killed or interrupted at any point (also in the middle of a save), either every attempt to load a network from the file fails, or every attempt succeeds with the same vocabulary and the same network, whatever random initial values the command starts with; and that network is one that the architecture description gives with some parameter values, so everything proved of new networks holds of it. With a unidirectional architecture, the score of a text is therefore made of what the loaded network gives to the sentences one at a time. With a network that can be stepped through, let the score, decode and sample commands load the file. For every sentence of shortlist words, there are random choices such that the sample command prints the sentence exactly if they come out; and if all of them are possible, the score command (without --shortlist and --exclude-unk) gives the logarithm of their joint probability as the score of the line, and so does the decode command (without --shortlist) as the network score of every hypothesis with these words.", "quantifier": "every history of train commands killed or interrupted at any points, every architecture, parameter values, initial values of each command, sentence, lattice, decoding options and outcome of the random choices", "why_tests_cant": "ranges over all crash points of all histories of commands and over all sentences, and relates four commands that share only a file", "anchors": ["theanolm/network/network.py:Network.from_file", "theanolm/network/network.py:Network.set_state", "theanolm/commands/train.py:train", "theanolm/commands/score.py:score", "theanolm/commands/decode.py:decode", "theanolm/commands/sample.py:sample", "theanolm/scoring/textscorer.py:TextScorer.score_line", "theanolm/scoring/latticedecoder.py:LatticeDecoder.decode", "theanolm/textsampler.py:TextSampler.generate"]}
{"id": "C75", "title": "Interpolating the probabilities of two language models", "statement": "Linear interpolation of two log probabilities (also minus infinity) with a weight between zero and one gives the logarithm of the weighted sum of the probabilities, whichever of them underflow to zero; with the weight zero or one it gives one of the log probabilities, whatever the other is. The result is between the two, grows with both of them, and interpolating two distributions gives a distribution. Log-linear interpolation gives the logarithm of the weighted geometric mean, never more than linear interpolation, and never raises its assertion. With log-linear interpolation the difference of the scores of two hypotheses of equal length does not change when the same path is added to both. (The expectations that log-linear interpolation gives a distribution, that every weight the command line accepts gives a number, and that with linear interpolation the worse of two hypotheses with the same words stays the worse, so that recombination is safe, are false: the refuted theorems give counterexamples.)", "quantifier": "every pair of log probabilities including minus infinity, every weight in [0, 1] (log-linear: every weight, scale and penalty for the order of hypotheses), every set of numbers for which exp() underflows, every pair of distributions", "why_tests_cant": "ranges over all real probabilities and weights and all underflow thresholds; tests of the decoder use a few lattices", "anchors": ["theanolm/backend/probfunctions.py:interpolate_linear", "theanolm/backend/probfunctions.py:interpolate_loglinear", "theanolm/scoring/latticedecoder.py:Token.recompute_total"]}
{"id": "C76", "title": "What the reverse_time option of a recurrent layer does", "statement": "Of the value of the reverse_time option of a layer only matters whether it is empty: two descriptions that differ only in which non-empty values the option has give the same network (or the same error), and so do a missing option and an empty value. In a description file the option is on exactly when the last value given to it is not empty. A network with a reversed LSTM or GRU layer refuses every time step of text generation and lattice decoding. (The expectation that reverse_time=false or reverse_time=0 leaves the layer reading forward is false: the network is the one that reverse_time=1 gives, and its predictions depend on later words.)", "quantifier": "every architecture description and vocabulary, every value of the option, every state and word of a time step", "why_tests_cant": "ranges over all descriptions and values of the option; no test uses the option", "anchors": ["theanolm/network/basiclayer.py:BasicLayer.__init__", "theanolm/network/lstmlayer.py:LSTMLayer.create_structure", "theanolm/network/grulayer.py:GRULayer.create_structure", "theanolm/network/bidirectionallayer.py:BidirectionalLayer", "theanolm/network/architecture.py:Architecture.from_description"]}
{"id": "C77", "title": "What the text of the score report tells", "statement": "If two runs of the score command with word scores, with any vocabularies, networks, subword markings, log bases, mini-batch sizes and input texts, write the same report, then they have scored the same sentences: the same words, made of the same subwords, with the same printed scores, the same words left without a score, each part of a word found in the same place (shortlist, outside of it, or not at all), and the same six counts. Without subwords the sentences of the input text can be read back from the report. A text without words gives a report of six zero counts without perplexity. The utterance scores are one line for each input line that is not blank, in the same order, each the score of that line alone; a blank line gives no output line.", "quantifier": "every pair of vocabularies, networks, texts and options, every way of printing numbers without white space", "why_tests_cant": "ranges over pairs of runs and all texts, whose words may look like parts of the report", "anchors": ["theanolm/commands/score.py:_score_text", "theanolm/commands/score.py:_write_word_scores", "theanolm/commands/score.py:_score_utterances"]}
{"id": "C78", "title": "Training with an optimizer, from command to command", "statement": "After any sequence of train commands on a model file, each with any of the optimizers (stochastic gradient descent, Nesterov momentum, AdaGrad, Adadelta, the two RMSProp variants, Adam), and in every state that the next command reaches, the optimizer has all its variables, they fit the network, and every update succeeds and is exactly the rule of the optimizer applied to the arrays of the mini-batch (for stochastic gradient descent every element of every parameter moves against its gradient, scaled by the learning rate and the limit of the norm); only values change, so that what is saved is the network of some time in the training and can be loaded. A command whose optimizer needs variables that the earlier optimizers do not have raises an exception and leaves the file as it was; one that needs no more than what all the earlier ones have is never refused because of them. Except with Adam, the state can be saved in place any number of times. (The expectation that this holds for Adam is false: saving its state a second time in the same file always raises an exception, so training with Adam and without a validation set ends after the second epoch. The expectation that the weights of the training files have an effect is false as well: a command with other weights ends in the same way and leaves the same file.)", "quantifier": "every history of train commands, interrupted or not, every state reached in a training, every mini-batch, gradient function and choice of optimizers", "why_tests_cant": "ranges over all histories of commands with different optimizers and all states reached in them", "anchors": ["theanolm/training/trainer.py:Trainer.train", "theanolm/training/basicoptimizer.py:BasicOptimizer.update_minibatch", "theanolm/training/basicoptimizer.py:BasicOptimizer.get_state", "theanolm/training/basicoptimizer.py:BasicOptimizer.set_state", "theanolm/training/adamoptimizer.py", "theanolm/parameters.py:Parameters.get_state", "theanolm/commands/train.py:train"]}
{"id": "C79", "title": "N-gram counts of the recipe scripts", "statement": "NGramCounts.from_text gives every n-gram up to the given order the number of positions at which its words follow one another in the words of the text, and contains no other n-grams. NGramCounts.read gives an n-gram the count of the last line of the file that has that n-gram before the first tab, and contains no n-gram that is not in the file; with max_order, lines of longer n-grams are skipped even if what follows the tab is not a number, with min_count, lines with smaller counts are skipped, and reading succeeds exactly when every line that is not skipped for its order has a number after the tab. Counts of n-grams whose words are not empty and have no whitespace, in particular those of any text, are read back as they were written by NGramCounts.write. (The expectation that n-grams do not cross from one sentence to the next is false: the history is not cleared between lines, and the counts depend only on the words of the whole text. The expectation that the counts of an n-gram that is on several lines are added is false: the last one stays.)", "quantifier": "every text, order and n-gram; every file of counts with a tab on each line and all limits", "why_tests_cant": "ranges over all texts, all files and all n-grams", "anchors": ["recipes/common/ngramcounts.py:NGramCounts.from_text", "recipes/common/ngramcounts.py:NGramCounts.read", "recipes/common/ngramcounts.py:NGramCounts.increment", "recipes/common/ngramcounts.py:NGramCounts.write"]}
{"id": "C80", "title": "Class membership probabilities corrected from counts", "statement": "fix-class-probabilities.py writes each word of each class of the input exactly once, on a line with the name of the class, the probability and the word. The probability is the count of the word divided by the count of the class if the count of the class is not zero; otherwise it is the probability of the input normalised to sum to one over the class, or zero if there is nothing to normalise. The probabilities of a class sum to one or all of them are zero. The script succeeds exactly when every line of the class file is blank or in one of the two formats and every line of the counts has a number after the tab. (The expectation that TheanoLM can read the output is false: a class in the format without probabilities, none of whose words has a count, gets zero probabilities, and reading the vocabulary from the file raises ZeroDivisionError.)", "quantifier": "every class file in either format or both and every file of counts with a tab on each line", "why_tests_cant": "ranges over all class files and all files of counts", "anchors": ["recipes/common/fix-class-probabilities.py", "recipes/common/wordclasses.py:WordClasses.read", "recipes/common/wordclasses.py:WordClasses.write", "recipes/common/wordclasses.py:WordClass.normalize", "recipes/common/ngramcounts.py:NGramCounts.read", "theanolm/vocabulary/vocabulary.py:Vocabulary.from_file"]}
