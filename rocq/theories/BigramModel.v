(** Model of the word class optimizer: wordclasses/bigramoptimizer.py,
    wordclasses/numpybigramoptimizer.py, wordclasses/theanobigramoptimizer.py, the main
    loop of wordclasses/wctool.py, wordclasses/functions.py:is_scheduled, and the word
    statistics of theanolm/vocabulary/statistics.py. No proofs.

    Simplifications: words are identified by their IDs (distinct words have distinct
    IDs). Count arrays are functions from indices; the code only uses indices within
    the dimensions. Counts are integers without overflow, logarithms are exact. The
    vocabulary has no out-of-shortlist words, as is the case in wctool. *)
From Coq Require Import Reals.
From Verif Require Import Base.
Local Open Scope Z_scope.

(** ** Word statistics *)

Record statistics := mkStatistics { unigram_counts : nat -> Z; bigram_counts : nat -> nat -> Z }.

Definition add1 (a : nat -> Z) (i : nat) (v : Z) : nat -> Z := fun k => if (k =? i)%nat then a k + v else a k.
Definition add2 (m : nat -> nat -> Z) (i j : nat) (v : Z) : nat -> nat -> Z :=
  fun k l => if ((k =? i)%nat && (l =? j)%nat)%bool then m k l + v else m k l.

(** statistics.py:63-76. Each element of the corpus is the word IDs of a line. *)
Definition count_line (s : statistics) (sequence : list nat) : statistics :=
  mkStatistics
    (fold_left (fun a w => add1 a w 1) sequence (unigram_counts s))
    (fold_left (fun m '(l, r) => add2 m l r 1) (combine (removelast sequence) (tl sequence)) (bigram_counts s)).
Definition bigram_statistics (corpus : list (list nat)) : statistics :=
  fold_left count_line corpus (mkStatistics (fun _ => 0) (fun _ _ => 0)).

(** ** The optimizer *)

(** The two implementations *)
Inductive backend := Numpy | Theano.

(** What does not change: the number of words and classes, bigramoptimizer.py:23-27,
    the word strings and the word statistics *)
Record problem := mkProblem {
  num_words : nat;
  num_classes : nat;
  num_normal_classes : nat;
  word_name : nat -> pystr;
  word_counts : nat -> Z;
  ww_counts : nat -> nat -> Z }.

(** numpybigramoptimizer.py:29-49 *)
Record state := mkState {
  word_to_class : list nat;
  class_counts : nat -> Z;
  cc_counts : nat -> nat -> Z;
  cw_counts : nat -> nat -> Z;
  wc_counts : nat -> nat -> Z }.

Definition class_of (w2c : list nat) (w : nat) : nat := nth w w2c 0%nat.

(** numpy.add.at, and Theano's inc_subtensor *)
Definition add_at1 (a : nat -> Z) (ids : list nat) (v : nat -> Z) : nat -> Z := fold_left (fun a i => add1 a i (v i)) ids a.
Definition add_at2 (m : nat -> nat -> Z) (ids : list ((nat * nat) * Z)) : nat -> nat -> Z :=
  fold_left (fun m '((i, j), v) => add2 m i j v) ids m.

(** Words that follow, or precede, a word: nonzero() of a row or a column *)
Definition right_words (p : problem) (w : nat) : list nat :=
  filter (fun v => negb (ww_counts p w v =? 0)) (seq 0 (num_words p)).
Definition left_words (p : problem) (w : nat) : list nat :=
  filter (fun u => negb (ww_counts p u w =? 0)) (seq 0 (num_words p)).

(** bigramoptimizer.py:53-93, _compute_class_statistics: [pairs] is nonzero() *)
Definition compute_class_statistics (p : problem) (w2c : list nat) : state :=
  let zero2 := fun _ _ : nat => 0 in
  let pairs := flat_map (fun u => map (fun v => (u, v)) (right_words p u)) (seq 0 (num_words p)) in
  mkState w2c
    (fold_left (fun a w => add1 a (class_of w2c w) (word_counts p w)) (seq 0 (num_words p)) (fun _ => 0))
    (add_at2 zero2 (map (fun '(u, v) => ((class_of w2c u, class_of w2c v), ww_counts p u v)) pairs))
    (add_at2 zero2 (map (fun '(u, v) => ((class_of w2c u, v), ww_counts p u v)) pairs))
    (add_at2 zero2 (map (fun '(u, v) => ((u, class_of w2c v), ww_counts p u v)) pairs)).

(** numpybigramoptimizer.py:13-49, theanobigramoptimizer.py:16-71: the constructor *)
Definition create (p : problem) (w2c : list nat) : result state :=
  if forallb (fun w => word_counts p w =? 0) (seq 0 (num_words p)) then Err ValueError
  else if forallb (fun u => match right_words p u with [] => true | _ => false end) (seq 0 (num_words p)) then Err ValueError
  else Ok (compute_class_statistics p w2c).

(** numpybigramoptimizer.py:63-79, get_word_prob *)
Definition get_word_prob (p : problem) (st : state) (w : nat) : R :=
  let class_count := class_counts st (class_of (word_to_class st) w) in
  if class_count =? 0 then 0%R else (IZR (word_counts p w) / IZR class_count)%R.

(** *** Floating point results

    [Masked] is numpy.ma.masked, the result of summing an array whose elements are all
    masked (or that has no elements). An operation on it gives it again. *)
Inductive number := Num (x : R) | NotNumber | Masked.
Definition num_add (a b : number) : number :=
  match a, b with
  | Masked, _ | _, Masked => Masked
  | NotNumber, _ | _, NotNumber => NotNumber
  | Num x, Num y => Num (x + y)
  end.
Definition num_opp (a : number) : number := match a with Num x => Num (- x) | a => a end.
Definition num_sub (a b : number) : number := num_add a (num_opp b).

(** x * log(x): zero times minus infinity, and the logarithm of a negative number, is
    not a number *)
Definition times_log (x : Z) : number := if 0 <? x then Num (IZR x * ln (IZR x))%R else NotNumber.
Definition twice (a : number) : number := match a with Num x => Num (2 * x)%R | a => a end.

(** (numpy.ma.log(x) * x).sum(): numpy.ma.log masks the elements that are not positive *)
Definition masked_sum (l : list Z) : number :=
  if existsb (fun x => 0 <? x) l
  then Num (fold_right (fun x s => ((if 0 <? x then IZR x * ln (IZR x) else 0) + s)%R) 0%R l)
  else Masked.
(** theanobigramoptimizer.py:320-326, _xlogx(x).sum() *)
Definition switch_sum (l : list Z) : number :=
  fold_right (fun x s => num_add (if x =? 0 then Num 0 else times_log x) s) (Num 0) l.
Definition sum_xlogx (b : backend) (l : list Z) : number := match b with Numpy => masked_sum l | Theano => switch_sum l end.

(** numpybigramoptimizer.py:175-181, _ll_change, and theanobigramoptimizer.py:307-318,
    where a comparison of a symbolic variable with zero is always true *)
Definition ll_change (b : backend) (old_count new_count : Z) : number :=
  let skip x := match b with Numpy => x =? 0 | Theano => false end in
  let result := if skip old_count then Num 0 else num_sub (Num 0) (times_log old_count) in
  if skip new_count then result else num_add result (times_log new_count).

(** numpybigramoptimizer.py:81-91, theanobigramoptimizer.py:273-285: log_likelihood *)
Definition log_likelihood (b : backend) (p : problem) (st : state) : number :=
  let classes := seq 0 (num_classes p) in
  num_sub
    (num_add (sum_xlogx b (flat_map (fun c => map (cc_counts st c) classes) classes))
             (sum_xlogx b (map (word_counts p) (seq 0 (num_words p)))))
    (twice (sum_xlogx b (map (class_counts st) classes))).

(** numpybigramoptimizer.py:93-173, theanobigramoptimizer.py:105-197: _evaluate *)
Definition evaluate (b : backend) (p : problem) (st : state) (word new : nat) : number :=
  let old := class_of (word_to_class st) word in
  let cc := cc_counts st in let cw := cw_counts st in let wc := wc_counts st in
  let ww := ww_counts p in
  (* old class *)
  let old_count := class_counts st old in
  let new_count := old_count - word_counts p word in
  let result := twice (times_log old_count) in
  let result := num_sub result (twice (times_log new_count)) in
  (* new class *)
  let old_count := class_counts st new in
  let new_count := old_count + word_counts p word in
  let result := num_add result (twice (times_log old_count)) in
  let result := num_sub result (twice (times_log new_count)) in
  (* classes other than the old and the new class *)
  let iter_class_ids := filter (fun c => negb (c =? old)%nat && negb (c =? new)%nat)%bool (seq 0 (num_classes p)) in
  let change result old_counts new_counts :=
    num_add (num_sub result (sum_xlogx b (map old_counts iter_class_ids))) (sum_xlogx b (map new_counts iter_class_ids)) in
  let result := change result (fun x => cc old x) (fun x => cc old x - wc word x) in
  let result := change result (fun x => cc new x) (fun x => cc new x + wc word x) in
  let result := change result (fun x => cc x old) (fun x => cc x old - cw x word) in
  let result := change result (fun x => cc x new) (fun x => cc x new + cw x word) in
  (* old class, new class *)
  let result := num_add result (ll_change b (cc old new) (cc old new - wc word new + cw old word - ww word word)) in
  (* new class, old class *)
  let result := num_add result (ll_change b (cc new old) (cc new old - cw new word + wc word old - ww word word)) in
  (* old class, old class *)
  let result := num_add result (ll_change b (cc old old) (cc old old - wc word old - cw old word + ww word word)) in
  (* new class, new class *)
  num_add result (ll_change b (cc new new) (cc new new + wc word new + cw new word + ww word word)).

(** An indexed in-place update a[ids] += v reads all the elements before it writes *)
Definition inc_row (m : nat -> nat -> Z) (i : nat) (ids : list nat) (v : nat -> Z) : nat -> nat -> Z :=
  fold_left (fun r j => fun k l => if ((k =? i)%nat && (l =? j)%nat)%bool then m i j + v j else r k l) ids m.
Definition inc_column (m : nat -> nat -> Z) (ids : list nat) (j : nat) (v : nat -> Z) : nat -> nat -> Z :=
  fold_left (fun r i => fun k l => if ((k =? i)%nat && (l =? j)%nat)%bool then m i j + v i else r k l) ids m.

(** numpybigramoptimizer.py:183-223, theanobigramoptimizer.py:199-271: _move. Indexing a
    NumPy array with an empty array raises IndexError, because the type of an empty
    array is a floating point type. *)
Definition move (b : backend) (p : problem) (st : state) (word new : nat) : result state :=
  let w2c := word_to_class st in
  let ww := ww_counts p in
  let old := class_of w2c word in
  (* word *)
  let class_counts := add1 (add1 (class_counts st) old (- word_counts p word)) new (word_counts p word) in
  (* word, word X *)
  let right_word_ids := filter (fun v => negb (v =? word)%nat) (right_words p word) in
  do _ <- (match b, right_word_ids with Numpy, [] => Err IndexError | _, _ => Ok tt end);
  let cw := inc_row (cw_counts st) old right_word_ids (fun v => - ww word v) in
  let cw := inc_row cw new right_word_ids (fun v => ww word v) in
  let cc := add_at2 (cc_counts st) (map (fun v => ((old, class_of w2c v), - ww word v)) right_word_ids) in
  let cc := add_at2 cc (map (fun v => ((new, class_of w2c v), ww word v)) right_word_ids) in
  (* word X, word *)
  let left_word_ids := filter (fun u => negb (u =? word)%nat) (left_words p word) in
  do _ <- (match b, left_word_ids with Numpy, [] => Err IndexError | _, _ => Ok tt end);
  let wc := inc_column (wc_counts st) left_word_ids old (fun u => - ww u word) in
  let wc := inc_column wc left_word_ids new (fun u => ww u word) in
  let cc := add_at2 cc (map (fun u => ((class_of w2c u, old), - ww u word)) left_word_ids) in
  let cc := add_at2 cc (map (fun u => ((class_of w2c u, new), ww u word)) left_word_ids) in
  (* word, word *)
  let count := ww word word in
  let cc := add2 (add2 cc old old (- count)) new new count in
  let cw := add2 (add2 cw old word (- count)) new word count in
  let wc := add2 (add2 wc word old (- count)) word new count in
  Ok (mkState (upd w2c word new) class_counts cc cw wc).

(** numpybigramoptimizer.py:225-235, theanobigramoptimizer.py:287-305: _class_size *)
Definition class_size (st : state) (c : nat) : nat := length (filter (fun d => d =? c)%nat (word_to_class st)).

(** bigramoptimizer.py:95-120, _find_best_move: the best value so far is minus infinity
    to begin with, and a comparison with NaN or with a masked value is not true *)
Definition better (x : number) (best : option (R * nat)) : option R :=
  match x, best with
  | Num x, None => Some x
  | Num x, Some (y, _) => if Rlt_dec y x then Some x else None
  | _, _ => None
  end.
Definition find_best_move (b : backend) (p : problem) (st : state) (word : nat) : option (R * nat) :=
  let old := class_of (word_to_class st) word in
  fold_left (fun best c =>
    if (c =? old)%nat then best else
    match better (evaluate b p st word c) best with Some x => Some (x, c) | None => best end)
    (seq 0 (num_normal_classes p)) None.

(** word.startswith('<') and word.endswith('>') *)
Definition special (w : pystr) : bool :=
  match w with c :: _ => ((c =? 60)%N && (last w 0%N =? 62)%N)%bool | [] => false end.

(** bigramoptimizer.py:29-51, move_to_best_class *)
Definition move_to_best_class (b : backend) (p : problem) (st : state) (word : nat) : result (state * bool) :=
  if special (word_name p word) then Ok (st, false)
  else if (class_size st (class_of (word_to_class st) word) <? 2)%nat then Ok (st, false)
  else match find_best_move b p st word with
       | Some (x, c) => if Rlt_dec 0 x then do st' <- move b p st word c; Ok (st', true) else Ok (st, false)
       | None => Ok (st, false)
       end.

(** wctool.py:129-159, the optimization loop, without logging. [passes] is the fuel. *)
Definition one_pass (b : backend) (p : problem) (st : state) : result (state * nat) :=
  foldM (fun '(st, n) w => do '(st', moved) <- move_to_best_class b p st w; Ok (st', if moved : bool then S n else n))
        (seq 0 (num_words p)) (st, 0%nat).
Fixpoint optimize (passes : nat) (b : backend) (p : problem) (st : state) : result state :=
  match passes with
  | O => Err OutOfFuel
  | S k => do '(st', n) <- one_pass b p st; if (n =? 0)%nat then Ok st' else optimize k b p st'
  end.

(** functions.py:21-45, is_scheduled *)
Definition is_scheduled (num_words frequency words_per_iteration : Z) : bool :=
  num_words * frequency mod words_per_iteration <? frequency.
