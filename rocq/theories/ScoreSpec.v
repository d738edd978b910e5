(** Specification of text scoring and subword merging. *)
From Coq Require Import QArith Qcanon.
From Verif Require Import Base QcLib Strings VocabModel ScoreModel IterSpec.
Local Open Scope nat_scope.

(** ** Subwords *)

(** A token with its log probability; [None] for an excluded token. *)
Notation stoken := (pystr * option lp)%type.

(** Sum of log probabilities, unknown if one of them is. *)
Fixpoint total_score (l : list (option lp)) : option lp :=
  match l with
  | [] => Some (Fin 0%Qc)
  | x :: l' => match x, total_score l' with
               | Some a, Some b => Some (ladd a b)
               | _, _ => None
               end
  end.

(** Two adjacent subwords belong to one word: "...+" and "+...". *)
Definition joined (a b : pystr) : Prop :=
  (exists p, a = p ++ [plus_sign]) /\ (exists q, b = plus_sign :: q).

(** [affix_words toks gs]: the words as groups of tokens. *)
Record affix_words (toks : list stoken) (gs : list (list stoken)) : Prop := {
  aw_concat : concat gs = toks;
  aw_nonempty : forall g, In g gs -> g <> [];
  aw_inside : forall g p a b q, In g gs -> g = p ++ a :: b :: q -> joined (fst a) (fst b);
  aw_between : forall p g1 a b g2 q, gs = p ++ (g1 ++ [a]) :: (b :: g2) :: q ->
               ~ joined (fst a) (fst b)
}.

(** [boundary_groups toks gs]: cutting the tokens after each boundary token. *)
Inductive boundary_groups : list stoken -> list (list stoken) -> Prop :=
| bg_last g : ~ In BOUNDARY (map fst g) -> boundary_groups g [g]
| bg_cut g lp rest gs :
    ~ In BOUNDARY (map fst g) -> boundary_groups rest gs ->
    boundary_groups (g ++ (BOUNDARY, lp) :: rest) ((g ++ [(BOUNDARY, lp)]) :: gs).

(** No boundary token directly after the beginning or another boundary token. *)
Definition no_empty_words (toks : list stoken) : Prop :=
  forall p s q, toks = p ++ (BOUNDARY, s) :: q -> exists p' w s', p = p' ++ [(w, s')] /\ w <> BOUNDARY.

(** The subwords of a group; <unk> makes the whole word unknown. *)
Definition content (g : list stoken) : list pystr :=
  filter (fun w => if pystr_eq_dec w BOUNDARY then false else true) (map fst g).
Definition group_word (g : list stoken) : list pystr :=
  if in_dec pystr_eq_dec UNK (content g) then [UNK] else content g.

(** [merged mark first toks words scores]: the words made of [first] followed by
    the tokens, and the scores of the words after the first. *)
Inductive merged : option marking -> pystr -> list stoken ->
                   list (list pystr) -> list (option lp) -> Prop :=
| merged_none first toks :
    merged None first toks ([first] :: map (fun x => [fst x]) toks) (map snd toks)
| merged_affix first toks gs :
    affix_words toks gs ->
    merged (Some PrefixAffix) first toks
           ([first] :: map (map fst) gs) (map (fun g => total_score (map snd g)) gs)
| merged_boundary first toks gs kept :
    boundary_groups toks gs ->
    kept = filter (fun g => match content g with [] => false | _ => true end) gs ->
    merged (Some WordBoundary) first toks
           ([first] :: map group_word kept) (map (fun g => total_score (map snd g)) kept).

(** What enters a reported total: the scores that are known and not -inf. *)
Definition known_scores (l : list (option lp)) : list lp :=
  concat (map (fun x => match x with Some NegInf | None => [] | Some a => [a] end) l).
Definition number {A} (P : A -> bool) (l : list A) : nat := length (filter P l).
Definition is_known (x : option lp) : bool :=
  match x with Some NegInf | None => false | _ => true end.
Definition is_excluded (x : option lp) : bool := match x with None => true | _ => false end.
Definition is_zero_prob (x : option lp) : bool := match x with Some NegInf => true | _ => false end.

(** ** Word scores *)

(** [batch_independent v net f]: what the network predicts at time step [t] of a
    sequence of a mini-batch depends only on the inputs of that sequence and on
    the target class; [f] is that function. Inputs past the end of a sequence,
    and the other sequences, have no influence. This is asked of mini-batches in
    which the words are words of the shortlist with their classes and the targets
    are classes of such words. *)
Definition batch_independent (v : vocabulary)
  (net : list (list nat) -> list (list nat) -> list (list nat) -> list (list nat) -> list (list Qc))
  (f : list (nat * nat) -> nat -> nat -> Qc) : Prop :=
  forall rows cols words classes mask targets,
    is_matrix rows cols words -> is_matrix rows cols classes ->
    is_matrix rows cols mask -> is_matrix rows cols targets ->
    (forall i j w, cell words i j = Some w ->
       exists c, cell classes i j = Some c /\ nth_error (v_w2c v) w = Some c) ->
    (forall i j c, cell targets i j = Some c -> exists w, nth_error (v_w2c v) w = Some c) ->
    is_matrix rows cols (net words classes mask targets) /\
    forall j inputs t target,
      length inputs <= rows ->
      (forall i, i < rows -> cell mask i j = Some (if i <? length inputs then 1 else 0)) ->
      (forall i w c, nth_error inputs i = Some (w, c) ->
                     cell words i j = Some w /\ cell classes i j = Some c) ->
      t < length inputs -> cell targets t j = Some target ->
      cell (net words classes mask targets) t j = Some (f inputs t target).

Section Scores.
Variable ln : Qc -> Qc.
Variable f : list (nat * nat) -> nat -> nat -> Qc.
Variable v : vocabulary.
Variable use_shortlist exclude_unk : bool.

(** Logarithm of a probability. *)
Definition log_of (p : Qc) (x : lp) : Prop :=
  (p = 0%Qc /\ x = NegInf) \/ ((0 < p)%Qc /\ x = Fin (ln p)) \/ ((p < 0)%Qc /\ x = NaN).

(** The class and membership probability under which a word is known to the
    network: its own, those of <unk> for an out-of-shortlist word. *)
Definition seen_as (word_id shown class_id : nat) (prob : Qc) : Prop :=
  (word_id < num_shortlist_words v /\ shown = word_id \/
   num_shortlist_words v <= word_id /\ word_to_id v UNK = Some shown) /\
  nth_error (v_w2c v) shown = Some class_id /\ get_word_prob v shown = Ok prob.

(** Out-of-shortlist shares are used. *)
Definition shares : Prop := use_shortlist = true /\ v_unigram v <> None.

(** Words whose probability is not computed. *)
Definition excluded (word_id : nat) : Prop :=
  (shares /\ word_to_id v UNK = Some word_id) \/
  (~ shares /\ exclude_unk = true /\
   (word_to_id v UNK = Some word_id \/ num_shortlist_words v <= word_id)).

(** Log of the share of a word of the <unk> probability. *)
Definition share_of (word_id : nat) (x : lp) : Prop :=
  (~ shares /\ x = Fin 0%Qc) \/
  (shares /\ exists ws w, get_oos_probs v = Ok ws /\ nth_error ws word_id = Some w /\
             match w with Some p => log_of p x | None => x = NaN end).

(** [word_score ids i r]: the score of word [i] of the sequence. *)
Inductive word_score (ids : list nat) (i : nat) : option lp -> Prop :=
| word_excluded word_id :
    nth_error ids i = Some word_id -> excluded word_id -> word_score ids i None
| word_scored word_id shown class_id prob inputs a b c :
    nth_error ids i = Some word_id -> ~ excluded word_id ->
    seen_as word_id shown class_id prob ->
    Forall2 (fun id wc => exists p, seen_as id (fst wc) (snd wc) p) (removelast ids) inputs ->
    log_of (f inputs (i - 1) class_id) a -> log_of prob b -> share_of word_id c ->
    word_score ids i (Some (ladd (ladd a b) c)).

(** The scores of all the words after the first. *)
Definition sequence_scores (ids : list nat) (scores : list (option lp)) : Prop :=
  Forall2 (word_score ids) (seq 1 (length ids - 1)) scores.

(** The words whose membership probability is zero are left out of totals. *)
Definition zero_member (word_id : nat) : Prop :=
  exists shown class_id, seen_as word_id shown class_id 0%Qc.
End Scores.

(** IDs of the words of a sequence. *)
Definition ids_of (v : vocabulary) (words : list pystr) (ids : list nat) : Prop :=
  exists unk, word_to_id v UNK = Some unk /\
  Forall2 (fun w i => word_to_id v w = Some i \/ word_to_id v w = None /\ i = unk) words ids.

(** [included v targets scores l]: the scores that enter a total: known ones of
    words with a membership probability other than zero. *)
Inductive included (v : vocabulary) : list nat -> list (option lp) -> list lp -> Prop :=
| included_nil : included v [] [] []
| included_skip id ids x scores l :
    x = None \/ zero_member v id -> included v ids scores l ->
    included v (id :: ids) (x :: scores) l
| included_take id ids x scores l :
    ~ zero_member v id -> included v ids scores l ->
    included v (id :: ids) (Some x :: scores) (x :: l).

(** [batch_matrices unk idss w m]: word ID and mask matrices of a mini-batch of
    sequences, one column for each, padded with <unk> and masked out. *)
Definition batch_matrices (unk : nat) (idss : list (list nat)) (w m : list (list nat)) : Prop :=
  exists rows, longest rows idss /\
    is_matrix rows (length idss) w /\ is_matrix rows (length idss) m /\
    forall j ids t, nth_error idss j = Some ids -> t < rows ->
      cell w t j = Some (nth t ids unk) /\
      cell m t j = Some (if t <? length ids then 1 else 0).

(** ** Texts *)

(** [sequence_result ... words (ids, (mwords, mscores))]: the scored words of one
    sequence: its word IDs, its words after merging the subwords, and their scores. *)
Inductive sequence_result (ln : Qc -> Qc) (f : list (nat * nat) -> nat -> nat -> Qc)
          (v : vocabulary) (use_shortlist exclude_unk : bool) (mark : option marking)
  : list pystr -> list nat * (list (list pystr) * list (option lp)) -> Prop :=
| sequence_result_intro first rest ids scores mwords mscores :
    ids_of v (first :: rest) ids ->
    sequence_scores ln f v use_shortlist exclude_unk ids scores ->
    merged mark first (combine rest scores) mwords mscores ->
    sequence_result ln f v use_shortlist exclude_unk mark (first :: rest) (ids, (mwords, mscores)).

(** Totals over the sequences of a text. *)
Definition totals (rs : list (list nat * (list (list pystr) * list (option lp)))) : text_stats :=
  let scores := concat (map (fun r => snd (snd r)) rs) in
  {| t_logprob := lsum (known_scores scores);
     t_sentences := length rs;
     t_tokens := list_sum (map (fun r => length (fst r)) rs);
     t_words := list_sum (map (fun r => length (fst (snd r))) rs);
     t_probs := number is_known scores;
     t_unks := number is_excluded scores;
     t_zeroprobs := number is_zero_prob scores |}.

(** Mean of log probabilities with the sign changed. *)
Definition negative_mean (total : lp) (n : nat) : lp :=
  match total with Fin q => Fin (- (q / qc_of_nat n))%Qc | x => x end.

(** The report on the words of a sequence: for every word after the first, the word,
    its history of up to three words, whether longer histories have been cut, its
    score in the requested base, and where its parts have been found. *)
Definition reported (v : vocabulary) (log_scale : Qc) (words : list (list pystr))
           (scores : list (option lp)) (entries : list score_entry) : Prop :=
  length entries = length scores /\
  forall i e, nth_error entries i = Some e ->
    nth_error words (S i) = Some (se_word e) /\
    (exists before, firstn (S i) words = before ++ se_history e) /\
    length (se_history e) = min 3 (S i) /\
    (se_cut e = true <-> 3 < S i) /\
    (exists x, nth_error scores i = Some x /\
       match x with
       | None => se_logprob e = None
       | Some (Fin q) => se_logprob e = Some (Fin (q / log_scale)%Qc)
       | Some y => se_logprob e = Some y
       end) /\
    Forall2 (fun part info =>
       match word_to_id v part with
       | None => info = InOOV
       | Some id => id < num_shortlist_words v /\ info = InShortlist \/
                    num_shortlist_words v <= id /\ info = InOOS
       end) (se_word e) (se_info e).

(** A finite number that is not positive. *)
Definition finite_nonpos (x : lp) : Prop := exists q, x = Fin q /\ (q <= 0)%Qc.

(** [scored_batches ... batches lss]: mini-batches, given by their matrices, and the
    scores of each that enter the total. *)
Definition scored_batches (ln : Qc -> Qc) (f : list (nat * nat) -> nat -> nat -> Qc)
           (v : vocabulary) (use_shortlist exclude_unk : bool)
           (batches : list (list (list nat) * list (list nat))) (lss : list (list lp)) : Prop :=
  exists unk, word_to_id v UNK = Some unk /\
  Forall2 (fun b l => exists idss ls, batch_matrices unk idss (fst b) (snd b) /\
     (forall ids x, In ids idss -> In x ids -> x < num_words v) /\
     Forall2 (fun ids l => exists scores,
                sequence_scores ln f v use_shortlist exclude_unk ids scores /\
                included v (tl ids) scores l) idss ls /\
     l = concat ls) batches lss.

(** What scoring a text returns, given the results of its sequences. *)
Definition text_result (rs : list (list nat * (list (list pystr) * list (option lp)))) (reports : list report)
  : result (text_stats * list report * option lp) :=
  match rs with
  | [] => Ok (totals rs, reports, None)
  | _ => match t_probs (totals rs) with
         | 0 => Err ZeroDivisionError
         | n => Ok (totals rs, reports, Some (negative_mean (t_logprob (totals rs)) n))
         end
  end.

