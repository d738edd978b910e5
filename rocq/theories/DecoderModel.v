(** Model of theanolm/scoring/latticedecoder.py. Log probabilities that are summed
    are exact numbers; when a score is infinite or NaN, the model stops with
    NumberError, which the code does not do: what the code does after that is not
    modelled. Statistics and logging are not modelled. *)
From Coq Require Import QArith Qcanon.
From Verif Require Import Base QcLib Strings Dict VocabModel ScoreModel LatticeModel.
Local Open Scope nat_scope.

(** Elements of token histories: word IDs, or words that are not in the vocabulary. *)
Definition hword := (nat + pystr)%type.

(** Result of an operation on log probabilities, if it is a finite number *)
Definition finite (x : lp) : result Qc :=
  match x with Fin q => Ok q | _ => Err NumberError end.

(** latticedecoder.py 281-298: the options, after the constructor has processed
    them; [prune_extra_limit] and the numbers of tokens are integers. *)
Record options := mkOptions {
  o_weight : Qc;                      (* nnlm_weight *)
  o_lm_scale : option Qc;
  o_wi_penalty : option Qc;
  o_unk_penalty : option Qc;
  o_use_shortlist : bool;
  o_unk_from_lattice : bool;
  o_linear : bool;                    (* linear_interpolation *)
  o_max_tokens : option Z;            (* max_tokens_per_node *)
  o_beam : option Qc;
  o_order : option Z;                 (* recombination_order *)
  o_extra_limit : option Z;           (* prune_extra_limit *)
  o_min_beam : Qc;                    (* abs_min_beam *)
  o_min_tokens : Z                    (* abs_min_max_tokens *)
}.
(** latticedecoder.py 295-298 *)
Definition abs_min_beam (o : options) : Qc :=
  match o_extra_limit o with None => 0%Qc | Some _ => o_min_beam o end.
Definition abs_min_max_tokens (o : options) : Z :=
  match o_extra_limit o with None => 0%Z | Some _ => o_min_tokens o end.

(** Python's l[:k] and l[-k:] *)
Definition py_prefix {A} (l : list A) (k : Z) : list A :=
  if (k <? 0)%Z then firstn (Z.to_nat (Z.of_nat (length l) + k)) l else firstn (Z.to_nat k) l.
Definition py_suffix {A} (l : list A) (k : Z) : list A :=
  if (0 <? k)%Z then skipn (length l - Z.to_nat k) l else skipn (Z.to_nat (- k)) l.

Section Decoder.
(** Recurrent state of one sequence, and the state of RecurrentState() *)
Variable state : Type.
Variable initial_state : state.
(** latticedecoder.py 316-327, _step_function, for a list of sequences: from input
    word and class, target class and state, the probability of the target class and
    the new state. *)
Variable net_step : list (nat * nat * nat * state) -> list (Qc * state).
(** Natural logarithm, interpolate_linear() of backend/probfunctions.py, and hash()
    of a tuple *)
Variable ln : Qc -> Qc.
Variable interpolate_linear : Qc -> Qc -> Qc -> Qc.
Variable hash : list hword -> Z.
Variable v : vocabulary.
Variable o : options.

(** latticedecoder.py 22-74, Token. The hash and the total are set whenever a token
    is in a list. *)
Record token := mkToken {
  tk_history : list hword;
  tk_state : state;
  tk_ac : Qc;
  tk_lat : Qc;
  tk_nn : Qc;
  tk_hash : Z;
  tk_graph : Qc;
  tk_total : Qc
}.

(** latticedecoder.py 99-112, recompute_hash() *)
Definition recombination_hash (history : list hword) : Z :=
  hash (match o_order o with
        | None => history
        | Some n => py_suffix history n
        end).

(** probfunctions.py 58-90, interpolate_loglinear() *)
Definition interpolate_loglinear (logprob1 logprob2 prior1 prior2 : Qc) : Qc :=
  ((if Qc_eq_dec prior1 0%Qc then 0%Qc else prior1 * logprob1)
   + (if Qc_eq_dec prior2 0%Qc then 0%Qc else prior2 * logprob2))%Qc.

(** latticedecoder.py 114-153, recompute_total(): graph_logprob *)
Definition graph_logprob (lm_scale wi_penalty : Qc) (history : list hword) (lat nn : Qc) : Qc :=
  let lm := if o_linear o then interpolate_linear nn lat (o_weight o)  (* 141-144 *)
            else interpolate_loglinear nn lat (o_weight o) (1 - o_weight o)%Qc in (* 146-148 *)
  (lm * lm_scale + wi_penalty * (qc_of_nat (length history) - 1))%Qc.  (* 150-151 *)

(** A token with hash and total: lines 99-153 *)
Definition finish_token (lm_scale wi_penalty : Qc) (history : list hword) (st : state) (ac lat nn : Qc) : token :=
  let graph := graph_logprob lm_scale wi_penalty history lat nn in
  mkToken history st ac lat nn (recombination_hash history) graph (ac + graph)%Qc. (* 153 *)

(** latticedecoder.py 300-305 *)
Definition decoder_oos : result (option (list lp)) :=
  if o_use_shortlist o then oos_logprobs ln v else Ok None.

(** latticedecoder.py 620-627, limit_to_shortlist() *)
Definition limit_to_shortlist (unk : nat) (w : hword) : nat :=
  match w with
  | inl i => if in_shortlist v i then i else unk
  | inr _ => unk
  end.

(** latticedecoder.py 659-700, _handle_unk_logprob() *)
Definition handle_unk_logprob (oos : option (list lp)) (w : hword) (network_logprob : lp)
           (oov_logprob : option Qc) : result lp :=
  match oos with
  | Some table =>                                                      (* 688 *)
    match w with
    | inl i => do x <- py_index table i; Ok (ladd network_logprob x)   (* 689-690 *)
    | inr _ => Ok (match oov_logprob with Some p => Fin p | None => network_logprob end) (* 691-694 *)
    end
  | None =>
    let in_shortlist := match w with inl i => in_shortlist v i | inr _ => false end in
    Ok (match oov_logprob with
        | Some p => if in_shortlist then network_logprob else Fin p    (* 695-698 *)
        | None => network_logprob
        end)
  end.

(** latticedecoder.py 603-657, _append_word(): the history, state and network score
    of each token *)
Definition append_word (unk : nat) (oos : option (list lp)) (tokens : list token) (target : hword)
           (oov_logprob : option Qc) : result (list (list hword * state * Qc)) :=
  do inputs <- mapM (fun t =>
       match rev (tk_history t) with
       | [] => Err IndexError
       | last :: _ =>
         let input := limit_to_shortlist unk last in                   (* 629-630 *)
         do '(class_id, prob) <- get_class_membership v input;         (* 632-633 *)
         Ok (input, class_id, prob)
       end) tokens;
  do target_class <- py_index (v_w2c v) (limit_to_shortlist unk target); (* 636-638 *)
  let outputs := net_step (map (fun x => let '((input, class_id, _), t) := x in
                                         (input, class_id, target_class, tk_state t))
                               (combine inputs tokens)) in             (* 634-635, 639-642 *)
  mapM (fun x =>
          let '((_, _, prob), (t, (p, st))) := x in
          let logprob := ladd (tlog ln p) (tlog ln prob) in            (* 643-645 *)
          do logprob <- handle_unk_logprob oos target logprob oov_logprob;
          do nn <- finite (ladd (Fin (tk_nn t)) logprob);              (* 655-657 *)
          Ok (tk_history t ++ [target], st, nn))                       (* 649-653 *)
       (combine inputs (combine tokens outputs)).

Definition plus_option (x : Qc) (y : option Qc) : Qc :=
  match y with Some y => (x + y)%Qc | None => x end.

(** The word in token histories: lines 454-457 *)
Definition history_word (w : pystr) : hword :=
  match word_to_id v w with Some i => inl i | None => inr w end.
(** The score of unknown words on a link: lines 458-463 *)
Definition link_oov (l : link) : option Qc :=
  if o_unk_from_lattice o then k_lm l else o_unk_penalty o.

(** latticedecoder.py 411-474, _propagate(): the new tokens. *)
Definition propagate (unk eos : nat) (oos : option (list lp)) (lm_scale wi_penalty : Qc)
           (tokens : list token) (link : option link) : result (list token) :=
  match link with
  | None =>                                                            (* 444-445 *)
    do new <- append_word unk oos tokens (inl eos) None;
    Ok (map (fun x => let '(t, (history, st, nn)) := x in
                      finish_token lm_scale wi_penalty history st (tk_ac t) (tk_lat t) nn)
            (combine tokens new))
  | Some l =>
    do new <- match k_word l with
              | None => Ok (map (fun t => (tk_history t, tk_state t, tk_nn t)) tokens)
              | Some w => append_word unk oos tokens (history_word w) (link_oov l) (* 453-463 *)
              end;
    Ok (map (fun x => let '(t, (history, st, nn)) := x in
                      finish_token lm_scale wi_penalty history st
                        (plus_option (tk_ac t) (k_ac l))               (* 448-449 *)
                        (plus_option (tk_lat t) (k_lm l)) nn)          (* 450-451 *)
            (combine tokens new))
  end.

(** latticedecoder.py 469-472: the best total of a node after new tokens *)
Definition better (best : option Qc) (t : token) : option Qc :=
  match best with
  | None => Some (tk_total t)
  | Some b => if Qclt_le_dec b (tk_total t) then Some (tk_total t) else Some b
  end.

(** A token that was dropped, and the history and network score of the kept one *)
Definition dropped := (token * list hword * Qc)%type.

(** latticedecoder.py 562-601, _sorted_recombined_tokens(); the state of the loop
    over the sorted tokens *)
Definition recombine_one (st : list token * list dropped) (t : token) : list token * list dropped :=
  let (result, recomb) := st in
  match find (fun kept => Z.eqb (tk_hash kept) (tk_hash t)) result with
  | None => (result ++ [t], recomb)                                    (* 593-595 *)
  | Some kept => (result, recomb ++ [(t, tk_history kept, tk_nn kept)]) (* 596-600 *)
  end.
Definition total_lt (a b : token) : bool :=
  if Qclt_le_dec (tk_total a) (tk_total b) then true else false.
Definition sorted_recombined (tokens : list token) (recomb : list dropped)
  : list token * list dropped :=
  fold_left recombine_one (sort_desc total_lt tokens) ([], recomb).

(** State of decoding: the tokens and the best total of each node, and the tokens
    dropped in recombination *)
Record dstate := mkDstate {
  d_tokens : list (list token);
  d_best : list (option Qc);
  d_recomb : list dropped
}.

(** latticedecoder.py 505-508 *)
Definition limit_divider (num_nodes : nat) : result Z :=
  match o_extra_limit o with
  | None => Ok 1%Z
  | Some 0%Z => Err ZeroDivisionError
  | Some e => Ok (Z.max 1 (Z.of_nat num_nodes / e + 1))
  end.

(** latticedecoder.py 516-523: the position where the time of the node begins *)
Fixpoint first_position {A} (f : A -> bool) (l : list A) (i : nat) : option nat :=
  match l with
  | [] => None
  | x :: l' => if f x then Some i else first_position f l' (S i)
  end.
Definition time_begin (nodes : list node) (sorted : list nat) (i : nat) : result nat :=
  match node_time nodes i with
  | None => match first_position (Nat.eqb i) sorted 0 with
            | Some p => Ok p
            | None => Err ValueError                                   (* 518 *)
            end
  | Some t =>
    match first_position (fun j => match node_time nodes j with
                                   | Some x => if Qclt_le_dec x t then false else true
                                   | None => false
                                   end) sorted 0 with
    | Some p => Ok p
    | None => Ok (length sorted - 1)
    end
  end.

(** max() of the values that are not None: lines 525-527 *)
Definition max_best (l : list (option Qc)) : result Qc :=
  match fold_left (fun m x => match m, x with
                              | None, _ => x
                              | Some _, None => m
                              | Some a, Some b => if Qclt_le_dec a b then Some b else m
                              end) l None with
  | Some m => Ok m
  | None => Err ValueError
  end.

(** latticedecoder.py 545-549 on the reversed list *)
Fixpoint drop_worst (threshold : Qc) (l : list token) : list token :=
  match l with
  | [] => []
  | [t] => [t]
  | t :: l' => if Qclt_le_dec threshold (tk_total t) then l else drop_worst threshold l'
  end.

(** latticedecoder.py 476-560, _prune() *)
Definition prune (nodes : list node) (sorted : list nat) (i : nat) (st : dstate) : result dstate :=
  do node_tokens <- py_index (d_tokens st) i;                          (* 500 *)
  match node_tokens with
  | [] => Err AssertionError                                           (* 501 *)
  | _ =>
    do divider <- limit_divider (length sorted);
    let (new_tokens, recomb) := sorted_recombined node_tokens (d_recomb st) in (* 510-511 *)
    do new_tokens <- match o_beam o with
       | None => Ok new_tokens
       | Some beam =>
         do begin <- time_begin nodes sorted i;
         if begin <? length sorted then
           do bests <- mapM (py_index (d_best st)) (skipn begin sorted);
           do best <- max_best bests;                                  (* 525-527 *)
           let beam := (beam / Q2Qc (inject_Z divider))%Qc in          (* 529 *)
           let beam := if Qclt_le_dec beam (abs_min_beam o) then abs_min_beam o else beam in (* 530 *)
           let threshold := (best - beam)%Qc in                        (* 531 *)
           Ok (rev (drop_worst threshold (rev new_tokens)))            (* 545-549 *)
         else Err AssertionError                                       (* 524 *)
       end;
    let new_tokens := match o_max_tokens o with
       | None => new_tokens
       | Some m => py_prefix new_tokens (Z.max (m / divider) (abs_min_max_tokens o)) (* 553-556 *)
       end in
    Ok (mkDstate (upd (d_tokens st) i new_tokens) (d_best st) recomb)  (* 559 *)
  end.

(** latticedecoder.py 389-398, one outgoing link *)
Definition decode_link (nodes : list node) (links : list link) (sorted : list nat)
           (unk eos : nat) (oos : option (list lp)) (lm_scale wi_penalty : Qc)
           (node_tokens : list token) (st : dstate) (k : nat) : result dstate :=
  do l <- py_index links k;
  do new <- propagate unk eos oos lm_scale wi_penalty node_tokens (Some l); (* 390-391 *)
  let e := k_end l in
  do old <- py_index (d_tokens st) e;
  do best <- py_index (d_best st) e;
  let st := mkDstate (upd (d_tokens st) e (old ++ new))                (* 392 *)
                     (upd (d_best st) e (fold_left better new best)) (d_recomb st) in
  match o_max_tokens o with
  | Some m => if (2 * m <? Z.of_nat (length (old ++ new)))%Z           (* 395-396 *)
              then prune nodes sorted e st                             (* 397 *)
              else Ok st
  | None => Ok st
  end.

(** latticedecoder.py 378-402, one node; the state and the final tokens *)
Definition decode_node (nodes : list node) (links : list link) (sorted : list nat)
           (unk eos : nat) (oos : option (list lp)) (lm_scale wi_penalty : Qc)
           (x : dstate * list token) (i : nat) : result (dstate * list token) :=
  let (st, final) := x in
  do st <- prune nodes sorted i st;                                    (* 379 *)
  do node_tokens <- py_index (d_tokens st) i;                          (* 382 *)
  match node_tokens with
  | [] => Err AssertionError                                           (* 383 *)
  | _ =>
    do n <- py_index nodes i;
    do new <- if n_final n
              then propagate unk eos oos lm_scale wi_penalty node_tokens None (* 384-386 *)
              else Ok [];
    do st <- foldM (decode_link nodes links sorted unk eos oos lm_scale wi_penalty node_tokens)
                   (n_out n) st;                                       (* 389-398 *)
    Ok (st, final ++ new)                                              (* 387 *)
  end.

(** latticedecoder.py 351-363 *)
Definition scale_of (a : lattice) : Qc :=
  match o_lm_scale o, a_lm_scale a with
  | Some x, _ => x
  | None, Some x => x
  | None, None => 1%Qc
  end.
Definition penalty_of (a : lattice) : Qc :=
  match o_wi_penalty o, a_wi_penalty a with
  | Some x, _ => x
  | None, Some x => x
  | None, None => 0%Qc
  end.

(** vocabulary.word_to_id[word] *)
Definition required_id (w : pystr) : result nat :=
  match word_to_id v w with Some i => Ok i | None => Err KeyError end.

(** latticedecoder.py 329-409, decode(), of a lattice that has not been decoded
    before, by a decoder whose constructor (281-327) succeeds: the final tokens and
    the tokens dropped in recombination *)
Definition decode (a : lattice) : result (list token * list dropped) :=
  do oos <- decoder_oos;                                               (* 300-305 *)
  do sos <- required_id SOS;                                           (* 307 *)
  do eos <- required_id EOS;                                           (* 308 *)
  do unk <- required_id UNK;                                           (* 309 *)
  let lm_scale := scale_of a in
  let wi_penalty := penalty_of a in
  let initial := finish_token lm_scale wi_penalty [inl sos] initial_state 0%Qc 0%Qc 0%Qc in (* 368-371 *)
  let n := length (a_nodes a) in
  let st := mkDstate (upd (repeat [] n) (a_initial a) [initial])       (* 365, 372 *)
                     (upd (repeat None n) (a_initial a) (Some (tk_total initial))) (* 373 *)
                     [] in
  do sorted <- sorted_nodes a;                                         (* 375 *)
  do '(st, final) <- foldM (decode_node (a_nodes a) (a_links a) sorted unk eos oos lm_scale wi_penalty)
                           sorted (st, []);                            (* 378-402 *)
  match final with
  | [] => Err InputError                                               (* 404-405 *)
  | _ => Ok (sorted_recombined final (d_recomb st))                    (* 407-409 *)
  end.

(** latticedecoder.py 155-169, history_words() *)
Definition history_words (t : token) : result (list pystr) :=
  mapM (fun w => match w with inl i => py_index (v_id_to_word v) i | inr s => Ok s end)
       (tk_history t).

End Decoder.
