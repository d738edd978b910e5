(** Property theorems C01, C02: parsing of text lines and the sentence index. *)
From Coq Require Import Sorting.Sorted.
From Verif Require Import Base Strings TextModel TextSpec TextProofs.

(** C01: a blank line gives the empty list; any other line gives its tokens,
    framed by <s> and </s>, and the result has the shape <s> ... </s>. *)
Theorem C01_utterance_framing : forall line : pystr,
  (all_space line /\ utterance_from_line line = Ok []) \/
  (exists toks mid, ~ all_space line /\ tokens line toks /\ toks <> [] /\
     framed toks (SOS :: mid ++ [EOS]) /\
     utterance_from_line line = Ok (SOS :: mid ++ [EOS])).
Proof. exact utterance_spec. Qed.
Print Assumptions C01_utterance_framing.

(** C01, both directions: [u] is the result exactly if it is the utterance. *)
Theorem C01_utterance_exact : forall line u,
  utterance_from_line line = Ok u <-> utterance_of line u.
Proof. exact utterance_of_iff. Qed.
Print Assumptions C01_utterance_exact.

(** The token list of a line and its framing are unique, so C01 determines the
    result of the parser. *)
Theorem C01_tokens_unique : forall line t1 t2, tokens line t1 -> tokens line t2 -> t1 = t2.
Proof. exact tokens_functional. Qed.
Print Assumptions C01_tokens_unique.
Theorem C01_framing_unique : forall toks u1 u2, framed toks u1 -> framed toks u2 -> u1 = u2.
Proof. exact framed_functional. Qed.
Print Assumptions C01_framing_unique.

(** C01: parsing the space-joined result again returns the same list. *)
Theorem C01_utterance_idempotent : forall line u,
  utterance_from_line line = Ok u ->
  utterance_from_line (join [space] u) = Ok u.
Proof. exact utterance_idempotent. Qed.
Print Assumptions C01_utterance_idempotent.

Example C01_example :
  utterance_from_line (str "  yksi   kaksi  " ++ [newline])
  = Ok [SOS; str "yksi"; str "kaksi"; EOS].
Proof. vm_compute. reflexivity. Qed.
Example C01_example_marker_only : utterance_from_line (str "</s>") = Ok [SOS; EOS].
Proof. vm_compute. reflexivity. Qed.
Example C01_example_blank : utterance_from_line (str "   ") = Ok [].
Proof. vm_compute. reflexivity. Qed.

(** C02: the index is exactly the line starts, in increasing order. *)
Theorem C02_sentence_starts_exact : forall data : pystr,
  exists starts, find_sentence_starts data = Ok starts /\
    StronglySorted lt starts /\
    (forall p, In p starts <-> line_start data p).
Proof. exact find_sentence_starts_exact. Qed.
Print Assumptions C02_sentence_starts_exact.

(** C02: reading one line at each indexed position reproduces the lines. *)
Theorem C02_readlines_at_starts : forall data ls,
  data <> [] -> lines_of data ls ->
  exists starts, find_sentence_starts data = Ok starts /\
                 map (readline_at data) starts = ls.
Proof. exact find_sentence_starts_lines. Qed.
Print Assumptions C02_readlines_at_starts.

(** Every content has exactly one division into lines. *)
Theorem C02_lines_exist : forall data, exists ls, lines_of data ls.
Proof. exact lines_of_exists. Qed.
Print Assumptions C02_lines_exist.
Theorem C02_lines_unique : forall data l1 l2, lines_of data l1 -> lines_of data l2 -> l1 = l2.
Proof. exact lines_of_functional. Qed.
Print Assumptions C02_lines_unique.

Definition C02_sample : pystr := str "a b" ++ [newline; newline] ++ str "c" ++ [newline].
Example C02_example : find_sentence_starts C02_sample = Ok [0; 4; 5].
Proof. vm_compute. reflexivity. Qed.
Example C02_example_lines :
  lines_of C02_sample [str "a b" ++ [newline]; [newline]; str "c" ++ [newline]].
Proof.
  change C02_sample with ((str "a b" ++ [newline]) ++ [newline] ++ (str "c" ++ [newline]) ++ []).
  repeat apply lines_cons; try apply lines_nil.
  - exists (str "a b"). split; [|reflexivity].
    intros H; vm_compute in H; repeat (destruct H as [H|H]; [discriminate|]); exact H.
  - exists []. split; [intros []|reflexivity].
  - exists (str "c"). split; [|reflexivity].
    intros H; vm_compute in H; repeat (destruct H as [H|H]; [discriminate|]); exact H.
Qed.
