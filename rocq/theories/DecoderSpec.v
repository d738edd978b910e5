(** Independent specification of lattice decoding: the hypothesis that follows a
    path of a lattice, and its scores. *)
From Coq Require Import QArith Qcanon.
From Verif Require Import Base QcLib Strings VocabModel ScoreModel ScoreSpec LatticeModel LatticeSpec
     DecoderModel.
Local Open Scope nat_scope.

(** [path a i p j]: the links of a path from node [i] to node [j] *)
Inductive path (a : lattice) : nat -> list link -> nat -> Prop :=
| path_nil i : path a i [] i
| path_snoc i p l : path a i p (k_start l) -> In l (a_links a) -> path a i (p ++ [l]) (k_end l).

(** The network processes the sequences of a mini-batch independently, if the input words
    are words of the shortlist with their classes and the targets are classes of such
    words. *)
Definition step_independent {S} (v : vocabulary) (net_step : list (nat * nat * nat * S) -> list (Qc * S))
           (f : nat * nat * nat * S -> Qc * S) : Prop :=
  forall l,
    (forall w c target st, In (w, c, target, st) l ->
       nth_error (v_w2c v) w = Some c /\ exists x, nth_error (v_w2c v) x = Some target) ->
    net_step l = map f l.

Section Hypotheses.
Variable state : Type.
Variable initial_state : state.
(** Probability of the target class and next state, from input word, input class,
    target class and state *)
Variable f : nat * nat * nat * state -> Qc * state.
Variable ln : Qc -> Qc.
Variable lin : Qc -> Qc -> Qc -> Qc.
Variable v : vocabulary.
Variable o : options.

(** The word, class and membership probability that the network sees. A word that
    is not in the vocabulary is seen as <unk>. *)
Definition seen_word (w : hword) (shown class_id : nat) (prob : Qc) : Prop :=
  match w with
  | inl i => seen_as v i shown class_id prob
  | inr _ => exists unk, word_to_id v UNK = Some unk /\ seen_as v unk shown class_id prob
  end.

(** The network score of a word: [x] is log probability of its class plus the log
    membership probability of the previous word. If out-of-shortlist words have
    their shares, the log share is added to the score of a vocabulary word. The
    score of an unknown word, if one is given ([oov]), is used for the words outside
    the vocabulary, and without shares also for out-of-shortlist words. *)
Inductive next_word (last w : hword) (oov : option Qc) (st : state) : lp -> state -> Prop :=
| next_word_intro shown class_id prob shown' class' prob' p st' a b x :
    seen_word last shown class_id prob -> seen_word w shown' class' prob' ->
    f (shown, class_id, class', st) = (p, st') -> log_of ln p a -> log_of ln prob b ->
    match w with
    | inl i => num_shortlist_words v <= i /\ ~ shares v (o_use_shortlist o) /\
               (exists y, oov = Some y /\ x = Fin y) \/
               (i < num_shortlist_words v \/ shares v (o_use_shortlist o) \/ oov = None) /\
               exists c, share_of ln v (o_use_shortlist o) i c /\ x = ladd (ladd a b) c
    | inr _ => match oov with Some y => x = Fin y | None => x = ladd a b end
    end ->
    next_word last w oov st x st'.

(** Scores of the words after <s>, the last word and the state after it *)
Inductive network_scores (sos : nat) : list (hword * option Qc) -> list Qc -> hword -> state -> Prop :=
| ns_nil : network_scores sos [] [] (inl sos) initial_state
| ns_snoc ws xs last st w oov x st' :
    network_scores sos ws xs last st -> next_word last w oov st (Fin x) st' ->
    network_scores sos (ws ++ [(w, oov)]) (xs ++ [x]) w st'.

(** The word of a link: its ID if it is in the vocabulary, with the score that it
    gets if it is an unknown word. *)
Definition link_words (l : link) : list (hword * option Qc) :=
  match k_word l with
  | None => []
  | Some w => [(match word_to_id v w with Some i => inl i | None => inr w end,
                if o_unk_from_lattice o then k_lm l else o_unk_penalty o)]
  end.
Definition path_words (p : list link) : list (hword * option Qc) := concat (map link_words p).
Definition score_or_zero (x : option Qc) : Qc := match x with Some y => y | None => 0%Qc end.

(** The combined language model score *)
Definition interpolated (nn lat : Qc) : Qc :=
  if o_linear o then lin nn lat (o_weight o)
  else (o_weight o * nn + (1 - o_weight o) * lat)%Qc.

(** The option if it is given, otherwise what the lattice says, if it does *)
Definition given (option_value lattice_value : option Qc) (default : Qc) : Qc :=
  match option_value, lattice_value with
  | Some x, _ => x
  | None, Some y => y
  | None, None => default
  end.

(** [hypothesis_on a p complete t]: the hypothesis that follows the path [p], at the
    end of the sentence if [complete]. *)
Record hypothesis_on (a : lattice) (p : list link) (complete : bool) (t : token state) : Prop := {
  hy_words : exists sos eos, word_to_id v SOS = Some sos /\ word_to_id v EOS = Some eos /\
    let words := path_words p ++ (if complete then [(inl eos, None)] else []) in
    tk_history _ t = inl sos :: map fst words /\
    exists xs last, network_scores sos words xs last (tk_state _ t) /\ tk_nn _ t = qsum xs;
  hy_ac : tk_ac _ t = qsum (map (fun l => score_or_zero (k_ac l)) p);
  hy_lat : tk_lat _ t = qsum (map (fun l => score_or_zero (k_lm l)) p);
  hy_graph : tk_graph _ t =
    (given (o_lm_scale o) (a_lm_scale a) 1 * interpolated (tk_nn _ t) (tk_lat _ t)
     + given (o_wi_penalty o) (a_wi_penalty a) 0 * qc_of_nat (length (tk_history _ t) - 1))%Qc;
  hy_total : tk_total _ t = (tk_ac _ t + tk_graph _ t)%Qc
}.

(** A hypothesis at a node, or at the end of the sentence *)
Definition hypothesis_at (a : lattice) (place : option nat) (p : list link) (t : token state) : Prop :=
  match place with
  | Some i => path a (a_initial a) p i /\ hypothesis_on a p false t
  | None => (exists i, path a (a_initial a) p i /\ is_final_node a i = true) /\ hypothesis_on a p true t
  end.

(** The part of the history that decides about recombination: the last [n] words,
    if a positive number [n] is given, otherwise everything (without the first
    words, for a negative number). *)
Definition recent (h r : list hword) : Prop :=
  match o_order o with
  | None => r = h
  | Some n => exists old, h = old ++ r /\
              (((0 < n)%Z /\ (length r = Z.to_nat n \/ old = [] /\ length r < Z.to_nat n)) \/
               ((n <= 0)%Z /\ (length old = Z.to_nat (- n) \/ r = [] /\ length old < Z.to_nat (- n))))
  end.

(** A dropped token: it has arrived at the same place as some hypothesis with the
    given history and network score, which the hash does not tell apart from it and
    whose total is at least the same. *)
Definition recombined_into (hash : list hword -> Z) (a : lattice) (t : token state)
           (h : list hword) (nn : Qc) : Prop :=
  exists place (p q : list link) (k : token state) (r r' : list hword),
    hypothesis_at a place p t /\ hypothesis_at a place q k /\
    tk_history _ k = h /\ tk_nn _ k = nn /\ (tk_total _ t <= tk_total _ k)%Qc /\
    recent (tk_history _ t) r /\ recent h r' /\ hash r = hash r'.

(** Histories of hypotheses of the lattice, and a hash that tells them apart *)
Definition lattice_history (a : lattice) (h : list hword) : Prop :=
  exists place p t, hypothesis_at a place p t /\ tk_history _ t = h.
Definition no_collisions (hash : list hword -> Z) (a : lattice) : Prop :=
  forall h h', lattice_history a h -> lattice_history a h' -> hash h = hash h' -> h = h'.
End Hypotheses.

(** Where the beam looks for the best total: from the node itself if it has no time,
    otherwise from the first node that is not earlier (or the last node, if all are). *)
Definition beam_begins (nodes : list node) (sorted : list nat) (i b : nat) : Prop :=
  b < length sorted /\
  match node_time nodes i with
  | None => nth_error sorted b = Some i /\ forall c, c < b -> nth_error sorted c <> Some i
  | Some t => (b = length sorted - 1 \/
               exists j x, nth_error sorted b = Some j /\ node_time nodes j = Some x /\ (t <= x)%Qc) /\
              forall c j x, c < b -> nth_error sorted c = Some j -> node_time nodes j = Some x -> (x < t)%Qc
  end.
Definition is_best_from (best : list (option Qc)) (sorted : list nat) (b : nat) (m : Qc) : Prop :=
  (exists c j, b <= c /\ nth_error sorted c = Some j /\ nth_error best j = Some (Some m)) /\
  forall c j x, b <= c -> nth_error sorted c = Some j -> nth_error best j = Some (Some x) -> (x <= m)%Qc.

(** What the size of the lattice divides the limits by *)
Definition divided_by (o : options) (num_nodes : nat) : Z :=
  match o_extra_limit o with
  | None => 1
  | Some e => Z.max 1 (Z.of_nat num_nodes / e + 1)
  end.
(** The number of tokens that is kept at a node, and the width of the beam *)
Definition token_limit (o : options) (num_nodes : nat) : option Z :=
  match o_max_tokens o with
  | None => None
  | Some m => Some (Z.max (m / divided_by o num_nodes)
                          (match o_extra_limit o with None => 0 | Some _ => o_min_tokens o end))
  end.
Definition beam_width (o : options) (num_nodes : nat) : option Qc :=
  match o_beam o with
  | None => None
  | Some beam =>
    let width := (beam / Q2Qc (inject_Z (divided_by o num_nodes)))%Qc in
    let least := match o_extra_limit o with None => 0%Qc | Some _ => o_min_beam o end in
    Some (if Qclt_le_dec width least then least else width)
  end.
