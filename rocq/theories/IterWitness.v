(** Concrete runs of the iterators, used as witnesses. *)
From Coq Require Import QArith Permutation.
From Verif Require Import Base ListLib Strings TextModel TextSpec IterModel IterSpec IterProofs.
Local Open Scope nat_scope.

Definition get {A} (d : A) (r : result A) : A := match r with Ok a => a | Err _ => d end.

Definition C03_files : list pystr :=
  [str "a b c" ++ [newline; newline] ++ str "d" ++ [newline]; str "e f"].

(** Functions that meet the contracts of numpy.random. *)
Definition cyc_choice (draw file : nat) (pop : list nat) (size : nat) (replace : bool) : list nat :=
  if replace then repeat (hd 0 pop) size else firstn size pop.
Lemma cyc_choice_contract : choice_contract cyc_choice.
Proof.
  intros draw file pop size replace Hne Hnd Hs. unfold cyc_choice. destruct replace.
  - destruct pop as [|x pop]; [congruence|]. cbn [hd]. rewrite repeat_length.
    repeat split; [|discriminate]. intros y Hy. apply repeat_spec in Hy. subst. now left.
  - specialize (Hs eq_refl). rewrite firstn_length, Nat.min_l by exact Hs.
    repeat split.
    + intros y Hy. rewrite <- (firstn_skipn size pop). apply in_or_app. now left.
    + intros _. rewrite <- (firstn_skipn size pop) in Hnd. now apply ListLib.NoDup_app_iff in Hnd.
Qed.
Definition rev_shuffle (draw : nat) (l : list nat) : list nat := rev l.
Lemma rev_shuffle_contract : shuffle_contract rev_shuffle.
Proof. intros draw l. apply Permutation_rev. Qed.

Section Len.
Let s0 := lin_fresh C03_files.
Let d := batch_init s0.
Let r1 := get ([], d) (take_batches linear linear_readline linear_reset 2 None 100 1 d).
Let r2 := get (0, d) (iter_len linear linear_readline linear_reset 2 None 100 (snd r1)).
Let r3 := get ([], d) (epoch linear linear_readline linear_reset 2 None 100 (snd r2)).
Lemma len_mid_epoch_witness : exists files s batch_size b1 st1 m st2 b2 e,
  linear_init files = Ok s /\
  take_batches linear linear_readline linear_reset batch_size None 100 1 (batch_init s) = Ok ([b1], st1) /\
  iter_len linear linear_readline linear_reset batch_size None 100 st1 = Ok (m, st2) /\
  epoch linear linear_readline linear_reset batch_size None 100 st2 = Ok (b1 :: b2, e).
Proof.
  exists C03_files, s0, 2, (hd [] (fst r1)), (snd r1), (fst r2), (snd r2), (tl (fst r3)), (snd r3).
  repeat split; vm_compute; reflexivity.
Qed.
End Len.

Section Resume.
Definition C08_files : list pystr := [str "a b c d e" ++ [newline]].
Let dum := mkShuffling (mkPointers [] [] []) [] 0 [] 0.
Let s0 := get dum (shuffling_init cyc_choice rev_shuffle C08_files []).
Let d := batch_init s0.
Let r1 := get ([], d) (take_batches shuffling shuffling_readline (shuffling_reset cyc_choice rev_shuffle) 1 (Some 3) 100 1 d).
Let st2 := get d (shuffling_iter_set_state (Some (shuffling_iter_get_state (snd r1))) d).
Let ep := epoch shuffling shuffling_readline (shuffling_reset cyc_choice rev_shuffle) 1 (Some 3) 100.
Let r2 := get ([], d) (ep (snd r1)).
Let r3 := get ([], d) (ep st2).
Lemma resume_witness : exists files s b1 st st2 rest e e2,
  shuffling_init cyc_choice rev_shuffle files [] = Ok s /\
  take_batches shuffling shuffling_readline (shuffling_reset cyc_choice rev_shuffle) 1 (Some 3) 100 1
               (batch_init s) = Ok (b1, st) /\
  shuffling_iter_set_state (Some (shuffling_iter_get_state st)) (batch_init s) = Ok st2 /\
  epoch shuffling shuffling_readline (shuffling_reset cyc_choice rev_shuffle) 1 (Some 3) 100 st = Ok (rest, e) /\
  rest <> [] /\
  epoch shuffling shuffling_readline (shuffling_reset cyc_choice rev_shuffle) 1 (Some 3) 100 st2 = Ok ([], e2).
Proof.
  exists C08_files, s0, (fst r1), (snd r1), st2, (fst r2), (snd r2), (snd r3).
  split; [vm_compute; reflexivity|]. split; [vm_compute; reflexivity|]. split; [vm_compute; reflexivity|].
  split; [vm_compute; reflexivity|]. split; [vm_compute; discriminate|]. vm_compute; reflexivity.
Qed.

Let s1 := get dum (shuffling_init cyc_choice rev_shuffle C03_files []).
Let d1 := batch_init s1.
Let n1 := get (None, d1) (next_sequences shuffling shuffling_readline (shuffling_reset cyc_choice rev_shuffle) 1 None 100 d1).
Lemma reachable_witness : exists s st,
  shuffling_init cyc_choice rev_shuffle C03_files [] = Ok s /\
  iter_reachable shuffling shuffling_readline (shuffling_reset cyc_choice rev_shuffle) 1 None s st /\
  s_order (b_src st) <> [] /\ b_buffer st = [] /\ s_next_line (b_src st) = 1.
Proof.
  exists s1, (snd n1). split; [vm_compute; reflexivity|]. split.
  - apply (reach_next _ _ _ _ _ _ 100 d1 (fst n1)); [apply reach_init|]. vm_compute; reflexivity.
  - split; [vm_compute; discriminate|]. split; vm_compute; reflexivity.
Qed.
End Resume.
