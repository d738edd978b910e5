(** Model of theanolm/vocabulary: vocabulary.py, wordclass.py, statistics.py.
    Probabilities are exact rationals instead of floating-point numbers. *)
From Coq Require Import QArith Qcanon.
From Verif Require Import Base QcLib Strings Dict TextModel.
Local Open Scope nat_scope.

(** ** wordclass.py *)

(** wordclass.py 22-36: class ID and the ordered dictionary of probabilities *)
Record wclass := mkClass { wc_id : nat; wc_probs : dict nat Qc }.

(** wordclass.py 22-36, __init__() *)
Definition new_class (class_id word_id : nat) (prob : Qc) : wclass :=
  mkClass class_id [(word_id, prob)].
(** wordclass.py 38-50, add(); 64-75, set_prob() *)
Definition class_set (c : wclass) (word_id : nat) (prob : Qc) : wclass :=
  mkClass (wc_id c) (dict_set Nat.eq_dec (wc_probs c) word_id prob).
(** wordclass.py 52-62, get_prob() *)
Definition class_get (c : wclass) (word_id : nat) : result Qc :=
  match dict_get Nat.eq_dec (wc_probs c) word_id with
  | Some p => Ok p
  | None => Err KeyError
  end.
(** wordclass.py 77-83, normalize_probs(). Division of Python floats by zero
    raises ZeroDivisionError. *)
Definition class_normalize (c : wclass) : result wclass :=
  let prob_sum := qsum (dict_values (wc_probs c)) in
  if Qc_eq_dec prob_sum 0%Qc then Err ZeroDivisionError
  else Ok (mkClass (wc_id c) (map (fun wp => (fst wp, (snd wp / prob_sum)%Qc)) (wc_probs c))).
(** wordclass.py 99-106, __len__() *)
Definition class_len (c : wclass) : nat := length (wc_probs c).

(** ** vocabulary.py *)

Record vocabulary := mkVocab {
  v_id_to_word : list pystr;
  v_w2c : list nat;                    (* word_id_to_class_id *)
  v_classes : list wclass;             (* _word_classes *)
  v_num_normal : nat;                  (* num_normal_classes *)
  v_unigram : option (list Qc)         (* _unigram_probs *)
}.

(** vocabulary.py 116-117: word_to_id maps a word to the last ID that has it. *)
Fixpoint last_index (words : list pystr) (start : nat) (word : pystr) : option nat :=
  match words with
  | [] => None
  | w :: words' =>
    match last_index words' (S start) word with
    | Some i => Some i
    | None => if pystr_eq_dec word w then Some start else None
    end
  end.
Definition word_to_id (v : vocabulary) (word : pystr) : option nat :=
  last_index (v_id_to_word v) 0 word.

Definition contains (words : list pystr) (word : pystr) : bool :=
  if in_dec pystr_eq_dec word words then true else false.

(** vocabulary.py 36-61, the three blocks of _add_special_tokens() *)
Definition add_special (token : pystr) (st : list pystr * list nat * list wclass)
  : list pystr * list nat * list wclass :=
  let '(id_to_word, w2c, classes) := st in
  if contains id_to_word token then st
  else (id_to_word ++ [token], w2c ++ [length classes],
        classes ++ [new_class (length classes) (length id_to_word) 1%Qc]).

(** vocabulary.py 16-61, _add_special_tokens() *)
Definition add_special_tokens (st : list pystr * list nat * list wclass)
  : result (list pystr * list nat * list wclass) :=
  let '(id_to_word, w2c, classes) := st in
  if length id_to_word =? length w2c                                   (* 32 *)
  then Ok (add_special UNK (add_special EOS (add_special SOS st)))
  else Err ValueError.

Definition starts_with_lt (word : pystr) : bool :=
  match word with c :: _ => N.eqb c 60 | [] => false end.

(** vocabulary.py 99-108: number of classes before the run of single-word classes
    at the end whose word starts with "<"; [classes] in reverse order. *)
Fixpoint num_normal (id_to_word : list pystr) (classes : list wclass) : result nat :=
  match classes with
  | [] => Ok 0
  | c :: classes' =>
    match wc_probs c with
    | [(word_id, _)] =>                                                (* 102-103 *)
      do word <- py_index id_to_word word_id;                          (* 104 *)
      if starts_with_lt word then num_normal id_to_word classes'
      else Ok (length classes)
    | _ => Ok (length classes)
    end
  end.

(** vocabulary.py 73-118, __init__() *)
Definition make_vocab (id_to_word : list pystr) (w2c : list nat) (classes : list wclass)
  : result vocabulary :=
  if contains id_to_word SOS && contains id_to_word EOS && contains id_to_word UNK (* 95 *)
  then
    do n <- num_normal id_to_word (rev classes);                       (* 99-108 *)
    do classes <- mapM class_normalize classes;                        (* 110-111 *)
    Ok (mkVocab id_to_word w2c classes n None)
  else Err ValueError.

(** The second column of a class file: int() or the class name. *)
Inductive class_key := KInt (z : Z) | KStr (s : pystr).
Definition class_key_eq_dec : forall a b : class_key, {a = b} + {a <> b}.
Proof. decide equality; [apply Z.eq_dec | apply pystr_eq_dec]. Defined.

Inductive vocab_format := Words | Classes | SrilmClasses | OtherFormat.

Section FromFile.

(** Python's int() and float() on a field; they raise ValueError. *)
Variable parse_int : pystr -> result Z.
Variable parse_float : pystr -> result Qc.

(** vocabulary.py 166-184: the fields of a line; [None] for a blank line. *)
Definition parse_vocab_line (format : vocab_format) (line : pystr)
  : result (option (pystr * option class_key * Qc)) :=
  let fields := split (strip line) in                                  (* 166-167 *)
  match fields with
  | [] => Ok None                                                      (* 168-169 *)
  | _ =>
    match format, fields with
    | Words, [word] => Ok (Some (word, None, 1%Qc))                    (* 170-173 *)
    | Classes, [word; id] =>                                           (* 174-177 *)
      do id <- parse_int id; Ok (Some (word, Some (KInt id), 1%Qc))
    | SrilmClasses, [id; prob; word] =>                                (* 178-181 *)
      do prob <- parse_float prob; Ok (Some (word, Some (KStr id), prob))
    | _, _ => Err InputError                                           (* 182-184 *)
    end
  end.

(** Local variables of from_file(). *)
Record reading := mkReading {
  r_words : list pystr;                  (* the set [words] *)
  r_id_to_word : list pystr;
  r_w2c : list nat;
  r_classes : list wclass;
  r_keys : dict class_key nat            (* file_id_to_class_id *)
}.

(** vocabulary.py 165-205, one iteration of the loop over lines *)
Definition read_vocab_line (format : vocab_format) (st : reading) (line : pystr)
  : result reading :=
  do e <- parse_vocab_line format line;
  match e with
  | None => Ok st
  | Some (word, key, prob) =>
    if contains (r_words st) word then Err InputError                  (* 186-188 *)
    else
      let words := r_words st ++ [word] in                             (* 189 *)
      let word_id := length (r_id_to_word st) in                       (* 190 *)
      let id_to_word := r_id_to_word st ++ [word] in                   (* 191 *)
      let known := match key with
                   | Some k => dict_get class_key_eq_dec (r_keys st) k
                   | None => None
                   end in
      match known with
      | Some class_id =>                                               (* 193-195 *)
        do c <- py_index (r_classes st) class_id;
        let classes := upd (r_classes st) class_id (class_set c word_id prob) in
        if word_id =? length (r_w2c st)                                (* 204 *)
        then Ok (mkReading words id_to_word (r_w2c st ++ [class_id]) classes (r_keys st))
        else Err AssertionError
      | None =>                                                        (* 196-202 *)
        let class_id := length (r_classes st) in
        let classes := r_classes st ++ [new_class class_id word_id prob] in
        let keys := match key with
                    | Some k => dict_set class_key_eq_dec (r_keys st) k class_id
                    | None => r_keys st
                    end in
        if word_id =? length (r_w2c st)                                (* 204 *)
        then Ok (mkReading words id_to_word (r_w2c st ++ [class_id]) classes keys)
        else Err AssertionError
      end
  end.

(** vocabulary.py 210-214: append the out-of-shortlist words *)
Fixpoint add_oos (words id_to_word : list pystr) (oos : list pystr) : list pystr :=
  match oos with
  | [] => id_to_word
  | w :: oos' =>
    if contains words w then add_oos words id_to_word oos'
    else add_oos (words ++ [w]) (id_to_word ++ [w]) oos'
  end.

(** vocabulary.py 120-216, from_file(); [oos_words] is [] when not given. The
    file is given as the list of its lines. *)
Definition from_file (format : vocab_format) (lines : list pystr) (oos_words : list pystr)
  : result vocabulary :=
  do st <- foldM (read_vocab_line format) lines (mkReading [] [] [] [] []);
  do '(id_to_word, w2c, classes) <-
     add_special_tokens (r_id_to_word st, r_w2c st, r_classes st);     (* 207 *)
  let words := r_words st ++ [SOS; EOS; UNK] in                        (* 208 *)
  make_vocab (add_oos words id_to_word oos_words) w2c classes.         (* 210-216 *)

End FromFile.

(** sorted(word_counts.items(), key=count): stable insertion sort *)
Fixpoint insert_count (x : pystr * nat) (l : list (pystr * nat)) : list (pystr * nat) :=
  match l with
  | [] => [x]
  | y :: l' => if snd x <=? snd y then x :: l else y :: insert_count x l'
  end.
Definition sort_counts (l : list (pystr * nat)) : list (pystr * nat) :=
  fold_right insert_count [] l.

(** vocabulary.py 253-268, the loop of from_word_counts(). A modulo by zero raises
    ZeroDivisionError. *)
Definition assign_class (num_classes : nat)
           (st : list pystr * list nat * list wclass * nat) (x : pystr * nat)
  : result (list pystr * list nat * list wclass * nat) :=
  let '(id_to_word, w2c, classes, class_id) := st in
  let word_id := length id_to_word in                                  (* 256 *)
  let id_to_word := id_to_word ++ [fst x] in                           (* 257 *)
  do classes <-
     (if class_id <? length classes                                    (* 259 *)
      then do c <- py_index classes class_id;
           Ok (upd classes class_id (class_set c word_id 1%Qc))        (* 260 *)
      else if class_id =? length classes                               (* 262 *)
           then Ok (classes ++ [new_class class_id word_id 1%Qc])      (* 263-264 *)
           else Err AssertionError);
  if word_id =? length w2c                                             (* 266 *)
  then match num_classes with
       | 0 => Err ZeroDivisionError
       | _ => Ok (id_to_word, w2c ++ [class_id], classes, (class_id + 1) mod num_classes)
       end                                                             (* 267-268 *)
  else Err AssertionError.

(** vocabulary.py 358-366: array of counts indexed by word ID *)
Definition count_array (v : vocabulary) (word_counts : dict pystr nat) : list nat :=
  fold_left (fun counts wc => match word_to_id v (fst wc) with
                              | Some word_id => upd counts word_id (snd wc)
                              | None => counts
                              end)
            word_counts (repeat 0 (length (v_id_to_word v))).

(** vocabulary.py 368-371: unigram probabilities *)
Definition unigram_of (counts : list nat) : list Qc :=
  let total := list_sum counts in
  if 0 <? total then map (fun c => (qc_of_nat c / qc_of_nat total)%Qc) counts
  else map qc_of_nat counts.

(** vocabulary.py 386-397, one class *)
Definition update_class (counts : list nat) (c : wclass) : result wclass :=
  do cls_counts <- mapM (fun wp => do n <- py_index counts (fst wp); Ok (fst wp, n)) (wc_probs c);
  let cls_total := list_sum (map snd cls_counts) in                    (* 390 *)
  if 0 <? cls_total                                                    (* 391 *)
  then Ok (fold_left (fun c wn => class_set c (fst wn) (qc_of_nat (snd wn) / qc_of_nat cls_total)%Qc)
                     cls_counts c)                                     (* 392-393 *)
  else
    let prob := (1 / qc_of_nat (class_len c))%Qc in                    (* 395 *)
    Ok (fold_left (fun c wp => class_set c (fst wp) prob) (wc_probs c) c). (* 396-397 *)

(** vocabulary.py 337-397, compute_probs() *)
Definition compute_probs (v : vocabulary) (word_counts : dict pystr nat)
           (update_class_probs : bool) : result vocabulary :=
  match word_to_id v SOS, word_to_id v EOS, word_to_id v UNK with
  | Some sos_id, Some eos_id, Some unk_id =>                           (* 358-360 *)
    let counts := count_array v word_counts in
    let unigram := unigram_of counts in
    if update_class_probs
    then
      let counts := upd counts sos_id (Nat.max (nth sos_id counts 0) 1) in (* 382 *)
      let counts := upd counts eos_id (Nat.max (nth eos_id counts 0) 1) in (* 383 *)
      let counts := upd counts unk_id (Nat.max (nth unk_id counts 0) 1) in (* 384 *)
      do classes <- mapM (update_class counts) (v_classes v);
      Ok (mkVocab (v_id_to_word v) (v_w2c v) classes (v_num_normal v) (Some unigram))
    else Ok (mkVocab (v_id_to_word v) (v_w2c v) (v_classes v) (v_num_normal v) (Some unigram))
  | _, _, _ => Err KeyError
  end.

(** vocabulary.py 218-274, from_word_counts() *)
Definition from_word_counts (word_counts : dict pystr nat) (num_classes : option nat)
  : result vocabulary :=
  let word_counts := dict_del pystr_eq_dec word_counts SOS in          (* 239-240 *)
  let word_counts := dict_del pystr_eq_dec word_counts EOS in          (* 241-242 *)
  let word_counts := dict_del pystr_eq_dec word_counts UNK in          (* 243-244 *)
  let num_classes := match num_classes with Some n => n | None => length word_counts end in
  do '(id_to_word, w2c, classes, _) <-
     foldM (assign_class num_classes) (sort_counts word_counts) ([], [], [], 0);
  do '(id_to_word, w2c, classes) <- add_special_tokens (id_to_word, w2c, classes);
  do v <- make_vocab id_to_word w2c classes;
  compute_probs v word_counts true.

(** The group "vocabulary" of the HDF5 state. *)
Record vocab_state := mkVocabState {
  h_words : option (list pystr);
  h_classes : option (list nat);
  h_probs : option (list Qc);
  h_unigram : option (list Qc)
}.
Definition empty_vocab_state : vocab_state := mkVocabState None None None None.

(** [dataset[:] = value] needs the same number of elements. Simplification: a
    single value, which h5py would broadcast, is refused as well. *)
Definition assign_dataset {A} (old : option (list A)) (value : list A) : result (list A) :=
  match old with
  | None => Ok value
  | Some o => if length o =? length value then Ok value else Err TypeError
  end.

(** vocabulary.py 399-443, get_state() *)
Definition vocab_get_state (v : vocabulary) (state : vocab_state) : result vocab_state :=
  let words := v_id_to_word v in                                       (* 411-423 *)
  do classes <- assign_dataset (h_classes state) (v_w2c v);            (* 425-429 *)
  do probs <- mapM (fun wc => do c <- py_index (v_classes v) (snd wc); class_get c (fst wc))
                   (combine (seq 0 (length (v_w2c v))) (v_w2c v));     (* 431-432 *)
  do probs <- assign_dataset (h_probs state) probs;                    (* 433-436 *)
  do unigram <- match v_unigram v with
                | None => Ok (h_unigram state)
                | Some u => do u <- assign_dataset (h_unigram state) u; Ok (Some u)
                end;                                                   (* 438-443 *)
  Ok (mkVocabState (Some words) (Some classes) (Some probs) unigram).

(** vocabulary.py 308-314, one iteration *)
Definition load_prob (w2c : list nat) (classes : list (option wclass)) (wp : nat * Qc)
  : result (list (option wclass)) :=
  let (word_id, prob) := wp in
  do class_id <- py_index w2c word_id;                                 (* 309 *)
  do c <- py_index classes class_id;                                   (* 310 *)
  match c with
  | None => Ok (upd classes class_id (Some (new_class class_id word_id prob)))
  | Some c => Ok (upd classes class_id (Some (class_set c word_id prob)))
  end.

(** vocabulary.py 276-335, from_state(). A class that no word belongs to stays
    None and makes the constructor raise TypeError. *)
Definition vocab_from_state (state : option vocab_state) : result vocabulary :=
  match state with
  | None => Err IncompatibleStateError                                 (* 284-286 *)
  | Some h =>
    match h_words h, h_classes h, h_probs h with
    | Some words, Some w2c, Some probs =>
      match w2c with
      | [] => Err ValueError                                           (* 305, max() *)
      | _ =>
        let num_classes := list_max w2c + 1 in                         (* 305 *)
        do classes <- foldM (load_prob w2c)
                            (combine (seq 0 (length probs)) probs)
                            (repeat None num_classes);                 (* 306-314 *)
        do classes <- mapM (fun c => match c with Some c => Ok c | None => Err TypeError end) classes;
        do v <- make_vocab words w2c classes;                          (* 316-318 *)
        match h_unigram h with
        | Some u =>                                                    (* 320-325 *)
          if length u =? length (v_id_to_word v)
          then Ok (mkVocab (v_id_to_word v) (v_w2c v) (v_classes v) (v_num_normal v) (Some u))
          else Err IncompatibleStateError
        | None => Ok v
        end
      end
    | _, _, _ => Err IncompatibleStateError                            (* 289-304 *)
    end
  end.

(** vocabulary.py 445-472 *)
Definition num_words (v : vocabulary) : nat := length (v_id_to_word v).
Definition num_shortlist_words (v : vocabulary) : nat := length (v_w2c v).
Definition num_classes (v : vocabulary) : nat := length (v_classes v).

(** vocabulary.py 474-491, words_to_ids() *)
Definition words_to_ids (v : vocabulary) (words : list pystr) : result (list nat) :=
  match word_to_id v UNK with
  | None => Err KeyError
  | Some unk_id =>
    Ok (map (fun w => match word_to_id v w with Some i => i | None => unk_id end) words)
  end.

(** vocabulary.py 507-519, get_word_prob() *)
Definition get_word_prob (v : vocabulary) (word_id : nat) : result Qc :=
  do class_id <- py_index (v_w2c v) word_id;
  do c <- py_index (v_classes v) class_id;
  class_get c word_id.

(** vocabulary.py 553-563, in_shortlist() *)
Definition in_shortlist (v : vocabulary) (word_id : nat) : bool :=
  word_id <? length (v_w2c v).

(** vocabulary.py 521-541, get_class_memberships(), for one element of the matrix *)
Definition get_class_membership (v : vocabulary) (word_id : nat) : result (nat * Qc) :=
  match word_to_id v UNK with
  | None => Err KeyError
  | Some unk_id =>
    let word_id := if num_shortlist_words v <=? word_id then unk_id else word_id in (* 537 *)
    do class_id <- py_index (v_w2c v) word_id;
    do c <- py_index (v_classes v) class_id;
    do p <- class_get c word_id;
    Ok (class_id, p)
  end.

(** vocabulary.py 576-598, get_oos_probs(); [None] stands for NaN (0/0). *)
Definition get_oos_probs (v : vocabulary) : result (list (option Qc)) :=
  match v_unigram v with
  | None => Err TypeError
  | Some u =>
    let n := num_shortlist_words v in
    let oos := skipn n u in
    let total := qsum oos in                                           (* 596 *)
    Ok (repeat (Some 1%Qc) (length (firstn n u)) ++                    (* 595 *)
        map (fun p => if Qc_eq_dec total 0%Qc then None else Some (p / total)%Qc) oos)
  end.

(** vocabulary.py 600-618, get_class_probs() *)
Definition get_class_probs (v : vocabulary) : result (list Qc) :=
  match v_unigram v with
  | None => Err TypeError
  | Some u =>
    let probs := firstn (num_shortlist_words v) u in
    do sums <- foldM (fun acc cp => do x <- py_index acc (fst cp);
                                    Ok (upd acc (fst cp) (x + snd cp)%Qc))
                     (combine (v_w2c v) probs) (repeat 0%Qc (num_classes v)); (* 611-612 *)
    let total := qsum sums in
    Ok (if Qclt_le_dec 0%Qc total then map (fun p => (p / total)%Qc) sums else sums)
  end.

(** ** statistics.py *)

(** statistics.py 11-33, compute_word_counts(). The files are given as the lists
    of their lines. *)
Definition count_word (d : dict pystr nat) (word : pystr) : dict pystr nat :=
  match dict_get pystr_eq_dec d word with
  | None => dict_set pystr_eq_dec d word 1                             (* 28-29 *)
  | Some n => dict_set pystr_eq_dec d word (n + 1)                     (* 31 *)
  end.
Definition count_line (d : dict pystr nat) (line : pystr) : result (dict pystr nat) :=
  do words <- utterance_from_line line; Ok (fold_left count_word words d).
Definition compute_word_counts (files : list (list pystr)) : result (dict pystr nat) :=
  foldM (fun d lines => foldM count_line lines d) files [].

(** statistics.py 35-76, BigramStatistics.__init__(). Counts are unbounded
    (the code uses int32). *)
Definition pair_eq_dec : forall a b : nat * nat, {a = b} + {a <> b}.
Proof. decide equality; apply Nat.eq_dec. Defined.
Record bigram_statistics := mkBigram {
  bs_unigram : list nat;
  bs_bigram : dict (nat * nat) nat       (* sparse matrix *)
}.
Definition bigram_get (b : dict (nat * nat) nat) (i j : nat) : nat :=
  match dict_get pair_eq_dec b (i, j) with Some n => n | None => 0 end.
Definition sequence_ids (v : vocabulary) (unk_id : nat) (words : list pystr) : list nat :=
  map (fun w => match word_to_id v w with Some i => i | None => unk_id end) words. (* 65-70 *)
Definition bigram_line (v : vocabulary) (unk_id : nat) (s : bigram_statistics) (line : pystr)
  : result bigram_statistics :=
  do words <- utterance_from_line line;
  let sequence := sequence_ids v unk_id words in
  let unigram := fold_left (fun u i => upd u i (nth i u 0 + 1)) sequence (bs_unigram s) in (* 71-72 *)
  let bigram := fold_left (fun b lr => dict_set pair_eq_dec b lr (bigram_get b (fst lr) (snd lr) + 1))
                          (combine (removelast sequence) (tl sequence)) (bs_bigram s) in   (* 73-75 *)
  Ok (mkBigram unigram bigram).
Definition compute_bigram_statistics (v : vocabulary) (files : list (list pystr))
  : result bigram_statistics :=
  match word_to_id v UNK with
  | None => Err KeyError
  | Some unk_id =>
    foldM (fun s lines => foldM (bigram_line v unk_id) lines s) files
          (mkBigram (repeat 0 (length (v_id_to_word v))) [])
  end.
