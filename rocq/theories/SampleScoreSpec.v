(** How likely it is that text generation comes up with a sentence. *)
From Coq Require Import QArith Qcanon.
From Verif Require Import Base QcLib Strings VocabModel NetModel LinkModel SamplerModel SamplerSpec.
Local Open Scope nat_scope.

Section Draws.
Variables qexp qsigmoid qtanh qrelu qleaky_relu : Qc -> Qc.
Notation A := (rationals qexp qsigmoid qtanh qrelu qleaky_relu).
Variable n : network A.
Variable v : vocabulary.

(** Words by their IDs, and the same words with their classes *)
Definition with_classes (ids : list nat) (inputs : list (nat * nat)) : Prop :=
  Forall2 (fun id x => fst x = id /\ nth_error (v_w2c v) id = Some (snd x)) ids inputs.

(** The network has read the words one at a time, and nothing else: it predicts the class
    of the next word with the probabilities [d]. *)
Definition predicts (ids : list nat) (d : list Qc) : Prop :=
  exists inputs ps st, with_classes ids inputs /\
    runs (step_network n) (map (fun x => ([fst x], [snd x])) inputs) (initial_state n 1) (ps ++ [[d]]) st.

(** The random choices for one word: at a time step, one of the classes, and one of the
    words of the class. [dr_distribution] and [dr_members] are the probabilities. *)
Record draw := mkDraw {
  dr_time : nat;
  dr_distribution : list Qc;
  dr_class : nat;
  dr_members : list Qc;
  dr_word : nat }.

(** The choices that make the word at time step [t] that of [ids], after the words before
    it. *)
Definition draw_of (ids : list nat) (t : nat) (x : draw) : Prop :=
  dr_time x = t /\ predicts (firstn t ids) (dr_distribution x) /\
  exists id wc, nth_error ids t = Some id /\ nth_error (v_w2c v) id = Some (dr_class x) /\
    nth_error (v_classes v) (dr_class x) = Some wc /\ dr_members x = map snd (wc_probs wc) /\
    nth_error (map fst (wc_probs wc)) (dr_word x) = Some id.

(** The choices for all the words of [ids] except the first [k] of them *)
Definition draws_of (k : nat) (ids : list nat) (xs : list draw) : Prop :=
  Forall2 (draw_of ids) (seq k (length ids - k)) xs.
End Draws.

(** Sequence [j] gets these choices from the random number generators. *)
Definition comes_out (draw_class draw_word : nat -> nat -> list Qc -> nat) (j : nat) (x : draw) : Prop :=
  draw_class (dr_time x) j (dr_distribution x) = dr_class x /\ draw_word (dr_time x) j (dr_members x) = dr_word x.

(** The random number generators choose a position in a list of probabilities. *)
Definition chooses (choice : nat -> nat -> list Qc -> nat) : Prop :=
  forall t j probs, probs <> [] -> choice t j probs < length probs.

(** The probabilities of the choices of a word. The choices at different time steps and for
    different sequences are independent. *)
Definition class_chance (x : draw) : Qc := nth (dr_class x) (dr_distribution x) 0%Qc.
Definition word_chance (x : draw) : Qc := nth (dr_word x) (dr_members x) 0%Qc.
Definition chance (xs : list draw) : Qc :=
  fold_right (fun x p => (class_chance x * word_chance x * p)%Qc) 1%Qc xs.

(** What can be printed when [length_] words have been asked for, after the sentence start
    symbol and the seed: words up to the first sentence end symbol, or as many words as are
    generated. *)
Definition printable (length_ : nat) (words : list pystr) : Prop :=
  (exists before_eos, words = before_eos ++ [EOS] /\ ~ In EOS before_eos /\ length words < length_) \/
  (~ In EOS words /\ S (length words) = length_).

(** All the sequences of [m] words, when there are [size] words *)
Fixpoint sequences_of (size m : nat) : list (list nat) :=
  match m with
  | 0 => [[]]
  | S m => flat_map (fun w => map (cons w) (sequences_of size m)) (seq 0 size)
  end.
