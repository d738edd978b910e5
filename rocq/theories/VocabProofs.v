(** Proofs about vocabularies. *)
From Coq Require Import QArith Qcanon Permutation.
From Verif Require Import Base ListLib QcLib Strings Dict TextModel TextSpec TextProofs VocabModel VocabSpec.
From Verif Require Export BaseLib.
Local Open Scope nat_scope.

Lemma py_index_ok {A} (l : list A) i a : nth_error l i = Some a -> py_index l i = Ok a.
Proof. unfold py_index. now intros ->. Qed.

Lemma contains_iff ws w : contains ws w = true <-> In w ws.
Proof. unfold contains. destruct (in_dec pystr_eq_dec w ws); split; auto; discriminate. Qed.
Lemma contains_false ws w : contains ws w = false <-> ~ In w ws.
Proof. unfold contains. destruct (in_dec pystr_eq_dec w ws); split; auto; try discriminate; tauto. Qed.

(** ** The words of a class *)

Definition members (w2c : list nat) (k : nat) : list nat :=
  filter (fun i => match nth_error w2c i with Some c => c =? k | None => false end)
         (seq 0 (length w2c)).

Lemma in_members w2c k i : In i (members w2c k) <-> nth_error w2c i = Some k.
Proof.
  unfold members. rewrite filter_In, in_seq. split.
  - intros [_ H]. destruct (nth_error w2c i); [|discriminate]. apply Nat.eqb_eq in H. congruence.
  - intros H. rewrite H, Nat.eqb_refl. split; [|reflexivity].
    assert (i < length w2c) by (apply nth_error_Some; congruence). lia.
Qed.

Lemma members_nodup w2c k : NoDup (members w2c k).
Proof. apply NoDup_filter, seq_NoDup. Qed.

Lemma members_snoc w2c c k :
  members (w2c ++ [c]) k = members w2c k ++ (if c =? k then [length w2c] else []).
Proof.
  unfold members. rewrite app_length, Nat.add_1_r, seq_S, filter_app. cbn [filter Nat.add].
  rewrite nth_error_app2, Nat.sub_diag by lia. cbn [nth_error]. f_equal.
  apply filter_ext_in. intros i Hi. apply in_seq in Hi. now rewrite nth_error_app1 by lia.
Qed.

Lemma members_nil k : members [] k = [].
Proof. reflexivity. Qed.

Lemma members_empty w2c k : ~ In k w2c -> members w2c k = [].
Proof.
  intros H. destruct (members w2c k) as [|i l] eqn:E; [reflexivity|].
  exfalso. apply H. apply (nth_error_In w2c i). apply in_members. rewrite E. now left.
Qed.
Lemma members_nonempty w2c k : In k w2c -> members w2c k <> [].
Proof.
  intros H E. apply In_nth_error in H as [i H]. apply in_members in H. rewrite E in H. exact H.
Qed.

(** ** Class lists determined by the class table and the weights *)

Definition class_of (w2c : list nat) (f : nat -> Qc) (k : nat) : wclass :=
  mkClass k (map (fun i => (i, f i)) (members w2c k)).
Definition classes_of (w2c : list nat) (f : nat -> Qc) (n : nat) : list wclass :=
  map (class_of w2c f) (seq 0 n).
Definition valid (w2c : list nat) (n : nat) : Prop :=
  (forall c, In c w2c -> c < n) /\ (forall k, k < n -> In k w2c).
Definition wsum (w2c : list nat) (f : nat -> Qc) (k : nat) : Qc :=
  qsum (map f (members w2c k)).

Lemma class_of_ext w2c f g k :
  (forall i, nth_error w2c i = Some k -> f i = g i) -> class_of w2c f k = class_of w2c g k.
Proof.
  intros H. unfold class_of. f_equal. apply map_ext_in. intros i Hi. apply in_members in Hi.
  now rewrite H.
Qed.

Lemma classes_of_ext w2c f g n :
  (forall i, i < length w2c -> f i = g i) -> classes_of w2c f n = classes_of w2c g n.
Proof.
  intros H. unfold classes_of. apply map_ext. intros k. apply class_of_ext. intros i Hi. apply H.
  apply nth_error_Some. congruence.
Qed.

Lemma classes_of_length w2c f n : length (classes_of w2c f n) = n.
Proof. unfold classes_of. now rewrite map_length, seq_length. Qed.

Lemma classes_of_nth w2c f n k :
  nth_error (classes_of w2c f n) k = if k <? n then Some (class_of w2c f k) else None.
Proof. apply nth_error_map_seq. Qed.

Lemma class_keys w2c f k : dict_keys (wc_probs (class_of w2c f k)) = members w2c k.
Proof. unfold dict_keys, class_of. cbn. rewrite map_map. cbn. apply map_id. Qed.

Lemma class_values w2c f k : dict_values (wc_probs (class_of w2c f k)) = map f (members w2c k).
Proof. unfold dict_values, class_of. cbn. rewrite map_map. reflexivity. Qed.

Lemma dict_get_map (f : nat -> Qc) ks i :
  dict_get Nat.eq_dec (map (fun i => (i, f i)) ks) i = if in_dec Nat.eq_dec i ks then Some (f i) else None.
Proof.
  induction ks as [|k ks IH]; cbn [map dict_get]; [reflexivity|].
  destruct (Nat.eq_dec i k) as [->|H].
  - destruct (in_dec Nat.eq_dec k (k :: ks)) as [|Hn]; [reflexivity|]. exfalso; apply Hn; now left.
  - rewrite IH. destruct (in_dec Nat.eq_dec i ks) as [Hi|Hi], (in_dec Nat.eq_dec i (k :: ks)) as [Hj|Hj];
      try reflexivity; exfalso; [apply Hj; now right|destruct Hj; [congruence|tauto]].
Qed.

Lemma class_get_of w2c f k i : nth_error w2c i = Some k -> class_get (class_of w2c f k) i = Ok (f i).
Proof.
  intros H. unfold class_get, class_of. cbn [wc_probs]. rewrite dict_get_map.
  apply in_members in H. destruct (in_dec Nat.eq_dec i (members w2c k)); [reflexivity|tauto].
Qed.

Definition wt (ws : list Qc) (i : nat) : Qc := nth i ws 0%Qc.

Lemma wt_snoc_old ws p i : i < length ws -> wt (ws ++ [p]) i = wt ws i.
Proof. intros H. unfold wt. now rewrite app_nth1. Qed.
Lemma wt_snoc_new ws p : wt (ws ++ [p]) (length ws) = p.
Proof. unfold wt. rewrite app_nth2, Nat.sub_diag by lia. reflexivity. Qed.

Record built (words : list pystr) (w2c : list nat) (ws : list Qc) (n : nat)
       (classes : list wclass) : Prop := mkBuilt {
  bu_w2c : length w2c = length words;
  bu_ws : length ws = length words;
  bu_classes : classes = classes_of w2c (wt ws) n;
  bu_valid : valid w2c n
}.

Lemma built_nil : built [] [] [] 0 [].
Proof.
  split; try reflexivity. split; [intros c []|intros k H; lia].
Qed.

Lemma class_of_snoc_other w2c ws c k p :
  length ws = length w2c -> c <> k ->
  class_of (w2c ++ [c]) (wt (ws ++ [p])) k = class_of w2c (wt ws) k.
Proof.
  intros Hl Hk. unfold class_of. rewrite members_snoc. apply Nat.eqb_neq in Hk. rewrite Hk, app_nil_r.
  f_equal. apply map_ext_in. intros i Hi. apply in_members in Hi. rewrite wt_snoc_old; [reflexivity|].
  rewrite Hl. apply nth_error_Some. congruence.
Qed.

Lemma class_of_snoc_same w2c ws c p :
  length ws = length w2c ->
  class_of (w2c ++ [c]) (wt (ws ++ [p])) c =
  mkClass c (map (fun i => (i, wt ws i)) (members w2c c) ++ [(length w2c, p)]).
Proof.
  intros Hl. unfold class_of. rewrite members_snoc, Nat.eqb_refl, map_app. cbn [map].
  f_equal. f_equal; [|rewrite <- Hl, wt_snoc_new; reflexivity].
  apply map_ext_in. intros i Hi. apply in_members in Hi. rewrite wt_snoc_old; [reflexivity|].
  rewrite Hl. apply nth_error_Some. congruence.
Qed.

Lemma class_set_new w2c f c p :
  class_set (class_of w2c f c) (length w2c) p =
  mkClass c (map (fun i => (i, f i)) (members w2c c) ++ [(length w2c, p)]).
Proof.
  unfold class_set. cbn [wc_id wc_probs class_of]. f_equal. apply dict_set_keys_new.
  change (~ In (length w2c) (dict_keys (wc_probs (class_of w2c f c)))).
  rewrite class_keys, in_members. intros E.
  assert (length w2c < length w2c) by (apply nth_error_Some; congruence). lia.
Qed.

Lemma built_add words w2c ws n classes word c p cl :
  built words w2c ws n classes -> nth_error classes c = Some cl ->
  built (words ++ [word]) (w2c ++ [c]) (ws ++ [p]) n (upd classes c (class_set cl (length words) p)).
Proof.
  intros [H1 H2 -> Hv] Hc. rewrite classes_of_nth in Hc.
  destruct (c <? n) eqn:Ec; [|discriminate]. apply Nat.ltb_lt in Ec. injection Hc as <-.
  split; rewrite ?app_length; cbn [length]; try lia.
  - apply upd_map_seq; [exact Ec| |].
    + rewrite <- H1, class_set_new. apply class_of_snoc_same. congruence.
    + intros k Hk Hne. apply class_of_snoc_other; congruence.
  - destruct Hv as [V1 V2]. split.
    + intros x Hx. apply in_app_iff in Hx as [Hx|[<-|[]]]; auto.
    + intros k Hk. apply in_or_app. left; auto.
Qed.

Lemma built_new words w2c ws n classes word p :
  built words w2c ws n classes ->
  built (words ++ [word]) (w2c ++ [n]) (ws ++ [p]) (S n) (classes ++ [new_class n (length words) p]).
Proof.
  intros [H1 H2 -> [V1 V2]].
  split; rewrite ?app_length; cbn [length]; try lia.
  - unfold classes_of. rewrite seq_S, map_app. cbn [map Nat.add]. f_equal.
    + apply map_ext_in. intros k Hk. apply in_seq in Hk. symmetry. apply class_of_snoc_other; [congruence|lia].
    + rewrite class_of_snoc_same by congruence. rewrite members_empty; [now rewrite H1|].
      intros Hn. apply V1 in Hn. lia.
  - split.
    + intros x Hx. apply in_app_iff in Hx as [Hx|[<-|[]]]; [|lia]. apply V1 in Hx. lia.
    + intros k Hk. apply in_or_app. destruct (Nat.eq_dec k n) as [->|]; [right; now left|].
      left. apply V2. lia.
Qed.

Lemma built_length words w2c ws n classes : built words w2c ws n classes -> length classes = n.
Proof. intros [_ _ -> _]. apply classes_of_length. Qed.

(** ** Special tokens *)

Definition missing (words : list pystr) : list pystr :=
  filter (fun t => negb (contains words t)) specials.

Lemma add_special_spec t words w2c ws n classes :
  built words w2c ws n classes ->
  exists words' w2c' ws' n' classes',
    add_special t (words, w2c, classes) = (words', w2c', classes') /\
    built words' w2c' ws' n' classes' /\
    (In t words /\ words' = words /\ w2c' = w2c /\ ws' = ws /\ n' = n \/
     ~ In t words /\ words' = words ++ [t] /\ w2c' = w2c ++ [n] /\ ws' = ws ++ [1%Qc] /\ n' = S n).
Proof.
  intros H. unfold add_special. destruct (contains words t) eqn:E.
  - apply contains_iff in E. exists words, w2c, ws, n, classes. repeat split; try apply H. tauto.
  - apply contains_false in E. pose proof (built_length _ _ _ _ _ H) as Hl. rewrite Hl.
    exists (words ++ [t]), (w2c ++ [n]), (ws ++ [1%Qc]), (S n), (classes ++ [new_class n (length words) 1%Qc]).
    split; [reflexivity|]. split; [now apply built_new|]. right. auto.
Qed.

Lemma contains_snoc words t t' : t <> t' -> contains (words ++ [t]) t' = contains words t'.
Proof.
  intros H. destruct (contains words t') eqn:E.
  - apply contains_iff in E. apply contains_iff. apply in_or_app. now left.
  - apply contains_false in E. apply contains_false. rewrite in_app_iff. intros [H1|[H1|[]]]; tauto.
Qed.

Lemma add_special_tokens_spec words w2c ws n classes :
  built words w2c ws n classes ->
  exists classes', let ms := missing words in
    add_special_tokens (words, w2c, classes) =
      Ok (words ++ ms, w2c ++ seq n (length ms), classes') /\
    built (words ++ ms) (w2c ++ seq n (length ms)) (ws ++ map (fun _ => 1%Qc) ms)
          (n + length ms) classes'.
Proof.
  intros H. unfold add_special_tokens.
  replace (length words =? length w2c) with true
    by (symmetry; apply Nat.eqb_eq; symmetry; apply (bu_w2c _ _ _ _ _ H)).
  destruct (add_special_spec SOS _ _ _ _ _ H) as (wa & ca & sa & na & la & Ea & Ba & Da).
  rewrite Ea.
  destruct (add_special_spec EOS _ _ _ _ _ Ba) as (wb & cb & sb & nb & lb & Eb & Bb & Db).
  rewrite Eb.
  destruct (add_special_spec UNK _ _ _ _ _ Bb) as (wc & cc & sc & nc & lc & Ec & Bc & Dc).
  rewrite Ec. exists lc. cbn zeta.
  assert (Hm : wc = words ++ missing words /\ cc = w2c ++ seq n (length (missing words)) /\
               sc = ws ++ map (fun _ => 1%Qc) (missing words) /\ nc = n + length (missing words)).
  { clear Ea Eb Ec Ba Bb Bc H.
    unfold missing, specials. cbn [filter].
    assert (N1 : SOS <> EOS) by discriminate. assert (N2 : SOS <> UNK) by discriminate.
    assert (N3 : EOS <> UNK) by discriminate.
    assert (Hin : forall l (x y : pystr), x <> y -> In y (l ++ [x]) <-> In y l).
    { intros l x y Hne. rewrite in_app_iff. cbn. intuition congruence. }
    destruct Da as [(Ia & -> & -> & -> & ->)|(Ia & -> & -> & -> & ->)].
    - rewrite (proj2 (contains_iff words SOS) Ia). cbn [negb].
      destruct Db as [(Ib & -> & -> & -> & ->)|(Ib & -> & -> & -> & ->)].
      + rewrite (proj2 (contains_iff words EOS) Ib). cbn [negb].
        destruct Dc as [(Ic & -> & -> & -> & ->)|(Ic & -> & -> & -> & ->)].
        * rewrite (proj2 (contains_iff words UNK) Ic). cbn. rewrite !app_nil_r, Nat.add_0_r. auto.
        * rewrite (proj2 (contains_false words UNK) Ic). cbn. rewrite Nat.add_1_r. auto.
      + rewrite (proj2 (contains_false words EOS) Ib). cbn [negb].
        destruct Dc as [(Ic & -> & -> & -> & ->)|(Ic & -> & -> & -> & ->)]; rewrite Hin in Ic by auto.
        * rewrite (proj2 (contains_iff words UNK) Ic). cbn. rewrite Nat.add_1_r. auto.
        * rewrite (proj2 (contains_false words UNK) Ic). cbn. rewrite <- !app_assoc. cbn.
          repeat split; auto; lia.
    - rewrite (proj2 (contains_false words SOS) Ia). cbn [negb].
      destruct Db as [(Ib & -> & -> & -> & ->)|(Ib & -> & -> & -> & ->)]; rewrite Hin in Ib by auto.
      + rewrite (proj2 (contains_iff words EOS) Ib). cbn [negb].
        destruct Dc as [(Ic & -> & -> & -> & ->)|(Ic & -> & -> & -> & ->)]; rewrite Hin in Ic by auto.
        * rewrite (proj2 (contains_iff words UNK) Ic). cbn. rewrite Nat.add_1_r. auto.
        * rewrite (proj2 (contains_false words UNK) Ic). cbn. rewrite <- !app_assoc. cbn.
          repeat split; auto; lia.
      + rewrite (proj2 (contains_false words EOS) Ib). cbn [negb].
        destruct Dc as [(Ic & -> & -> & -> & ->)|(Ic & -> & -> & -> & ->)]; rewrite !Hin in Ic by auto.
        * rewrite (proj2 (contains_iff words UNK) Ic). cbn. rewrite <- !app_assoc. cbn.
          repeat split; auto; lia.
        * rewrite (proj2 (contains_false words UNK) Ic). cbn. rewrite <- !app_assoc. cbn.
          repeat split; auto; lia. }
  destruct Hm as (-> & -> & -> & ->). split; [reflexivity|exact Bc].
Qed.

Lemma specials_nodup : NoDup specials.
Proof. repeat constructor; cbn; intuition discriminate. Qed.

Lemma missing_in words t : In t (missing words) <-> is_special t /\ ~ In t words.
Proof.
  unfold missing. rewrite filter_In, negb_true_iff, contains_false. reflexivity.
Qed.

Lemma with_missing_nodup words : NoDup words -> NoDup (words ++ missing words).
Proof.
  intros H. apply NoDup_app_iff. split; [exact H|]. split; [apply NoDup_filter, specials_nodup|].
  intros x Hx Hm. apply missing_in in Hm. tauto.
Qed.

Lemma with_missing_specials words t : is_special t -> In t (words ++ missing words).
Proof.
  intros H. apply in_or_app. destruct (in_dec pystr_eq_dec t words); [now left|]. right. now apply missing_in.
Qed.

(** ** The constructor *)

Lemma num_normal_keys words cs cs' :
  map (fun c => dict_keys (wc_probs c)) cs = map (fun c => dict_keys (wc_probs c)) cs' ->
  num_normal words cs = num_normal words cs'.
Proof.
  revert cs'; induction cs as [|c cs IH]; intros [|c' cs'] H; try discriminate; [reflexivity|].
  cbn [map] in H. injection H as Hc Hcs. cbn [num_normal].
  assert (Hlen : length cs = length cs').
  { rewrite <- (map_length (fun c => dict_keys (wc_probs c)) cs), Hcs. apply map_length. }
  destruct (wc_probs c) as [|[w p] [|x l]], (wc_probs c') as [|[w' p'] [|x' l']]; try discriminate.
  - cbn [length]. now rewrite Hlen.
  - cbn in Hc. injection Hc as <-. destruct (py_index words w) as [word|]; cbn; [|reflexivity].
    destruct (starts_with_lt word); [now apply IH|]. now rewrite Hlen.
  - cbn [length]. now rewrite Hlen.
Qed.

Lemma num_normal_ok words cs :
  (forall c i, In c cs -> In i (dict_keys (wc_probs c)) -> i < length words) ->
  exists n, num_normal words cs = Ok n /\ n <= length cs.
Proof.
  induction cs as [|c cs IH]; intros H; cbn [num_normal]; [exists 0; auto|].
  assert (E : exists n, num_normal words cs = Ok n /\ n <= length cs)
    by (apply IH; intros c' i Hc; apply H; now right).
  destruct E as (n & E & Hn).
  destruct (wc_probs c) as [|[w p] [|x l]] eqn:Ep.
  - exists (length (c :: cs)). auto.
  - assert (Hw : w < length words).
    { apply (H c); [now left|]. rewrite Ep. now left. }
    apply nth_error_Some in Hw. destruct (nth_error words w) as [word|] eqn:Ew; [|congruence].
    rewrite (py_index_ok _ _ _ Ew). cbn [bind]. destruct (starts_with_lt word).
    + exists n. split; [exact E|]. cbn. lia.
    + exists (length (c :: cs)). auto.
  - exists (length (c :: cs)). auto.
Qed.

Definition class_idx (w2c : list nat) (i : nat) : nat := nth i w2c 0.
Definition normalized (w2c : list nat) (f : nat -> Qc) (i : nat) : Qc :=
  (f i / wsum w2c f (class_idx w2c i))%Qc.

Lemma class_normalize_of w2c f k :
  class_normalize (class_of w2c f k) =
  if Qc_eq_dec (wsum w2c f k) 0%Qc then Err ZeroDivisionError
  else Ok (class_of w2c (normalized w2c f) k).
Proof.
  unfold class_normalize. rewrite class_values. fold (wsum w2c f k).
  destruct (Qc_eq_dec (wsum w2c f k) 0%Qc); [reflexivity|].
  cbn [wc_id wc_probs class_of]. rewrite map_map. cbn [fst snd]. do 2 f_equal.
  unfold class_of. f_equal.
  apply map_ext_in. intros i Hi. apply in_members in Hi. unfold normalized, class_idx.
  now rewrite (nth_error_nth _ _ 0 Hi).
Qed.

Lemma keys_classes_of w2c f n :
  map (fun c => dict_keys (wc_probs c)) (classes_of w2c f n) = map (members w2c) (seq 0 n).
Proof. unfold classes_of. rewrite map_map. apply map_ext. intros k. apply class_keys. Qed.

Lemma num_normal_classes words w2c f g n :
  num_normal words (rev (classes_of w2c f n)) = num_normal words (rev (classes_of w2c g n)).
Proof. apply num_normal_keys. now rewrite !map_rev, !keys_classes_of. Qed.

Lemma wsum_normalized w2c f k :
  wsum w2c f k <> 0%Qc -> wsum w2c (normalized w2c f) k = 1%Qc.
Proof.
  intros H. unfold wsum.
  rewrite (map_ext_in _ (fun i => (f i / wsum w2c f k)%Qc)).
  - rewrite qsum_map_div. now apply qc_div_self.
  - intros i Hi. apply in_members in Hi. unfold normalized, class_idx. now rewrite (nth_error_nth _ _ 0 Hi).
Qed.

Lemma make_vocab_spec words w2c f n v :
  length w2c <= length words ->
  make_vocab words w2c (classes_of w2c f n) = Ok v <->
  (forall t, is_special t -> In t words) /\
  (forall k, k < n -> wsum w2c f k <> 0%Qc) /\
  exists nn, num_normal words (rev (classes_of w2c f n)) = Ok nn /\
    v = mkVocab words w2c (classes_of w2c (normalized w2c f) n) nn None.
Proof.
  intros Hl. unfold make_vocab.
  destruct (num_normal_ok words (rev (classes_of w2c f n))) as (nn & En & _).
  { intros c i Hc Hi. apply in_rev, in_map_iff in Hc as (k & <- & _). rewrite class_keys in Hi.
    apply in_members in Hi. assert (i < length w2c) by (apply nth_error_Some; congruence). lia. }
  rewrite En. cbn [bind].
  assert (Hsp : contains words SOS && contains words EOS && contains words UNK = true <->
                forall t, is_special t -> In t words).
  { rewrite !andb_true_iff, !contains_iff. split.
    - intros [[? ?] ?] t [<-|[<-|[<-|[]]]]; auto.
    - intros H. repeat split; apply H; cbn; auto. }
  destruct (contains words SOS && contains words EOS && contains words UNK) eqn:Es.
  2:{ split; [discriminate|]. intros (H & _). apply Hsp in H. discriminate. }
  assert (Hs : forall t, is_special t -> In t words) by (now apply Hsp). clear Hsp.
  split.
  - intros H.
    destruct (mapM class_normalize (classes_of w2c f n)) as [cs|] eqn:Em; cbn in H; [|discriminate].
    injection H as <-. apply mapM_inv in Em.
    assert (Hk : forall k, k < n -> wsum w2c f k <> 0%Qc).
    { intros k Hk E. assert (Hc : nth_error (classes_of w2c f n) k = Some (class_of w2c f k)).
      { rewrite classes_of_nth. apply Nat.ltb_lt in Hk. now rewrite Hk. }
      apply nth_error_split in Hc as (l1 & l2 & Hc & _). rewrite Hc in Em.
      apply Forall2_app_inv_l in Em as (b1 & b2 & _ & Em & _).
      inversion Em as [|x y l l' Hx Hy]; subst. rewrite class_normalize_of in Hx.
      destruct (Qc_eq_dec (wsum w2c f k) 0%Qc); [discriminate|contradiction]. }
    split; [exact Hs|]. split; [exact Hk|]. exists nn. split; [reflexivity|]. f_equal.
    unfold classes_of in Em |- *. rewrite <- (map_id (seq 0 n)) in Em at 1. clear En.
    assert (Hlt : forall k, In k (seq 0 n) -> k < n) by (intros k Hin; apply in_seq in Hin; lia).
    rewrite map_id in Em.
    revert cs Em Hlt. generalize (seq 0 n). intros l. induction l as [|k l IH]; intros cs Em Hlt.
    + inversion Em. reflexivity.
    + cbn [map] in Em. inversion Em as [|x y l0 l' Hx Hy]; subst. cbn [map]. f_equal.
      * rewrite class_normalize_of in Hx.
        destruct (Qc_eq_dec (wsum w2c f k) 0%Qc); [discriminate|congruence].
      * apply IH; [exact Hy|]. intros k' Hk'. apply Hlt. now right.
  - intros (_ & Hk & nn' & E & ->). injection E as <-.
    assert (Em : mapM class_normalize (classes_of w2c f n) = Ok (classes_of w2c (normalized w2c f) n)).
    { unfold classes_of. rewrite <- (map_map (fun k => k) (class_of w2c (normalized w2c f))), map_id.
      assert (Hlt : forall k, In k (seq 0 n) -> k < n) by (intros k Hin; apply in_seq in Hin; lia).
      revert Hlt. generalize (seq 0 n). intros l. induction l as [|k l IH]; intros Hlt; [reflexivity|].
      cbn [map mapM]. rewrite class_normalize_of.
      destruct (Qc_eq_dec (wsum w2c f k) 0%Qc) as [E|_]; [exfalso; apply (Hk k); [apply Hlt; now left|exact E]|].
      cbn [bind]. rewrite IH; [reflexivity|]. intros k' Hk'. apply Hlt. now right. }
    rewrite Em. reflexivity.
Qed.

(** ** Well-formed vocabularies *)

Record wf (v : vocabulary) (f : nat -> Qc) (n : nat) : Prop := mkWf {
  wf_nodup : NoDup (v_id_to_word v);
  wf_short : length (v_w2c v) <= length (v_id_to_word v);
  wf_special : forall t, is_special t -> exists i, nth_error (v_id_to_word v) i = Some t /\ i < length (v_w2c v);
  wf_classes : v_classes v = classes_of (v_w2c v) f n;
  wf_valid : valid (v_w2c v) n;
  wf_sums : forall k, k < n -> wsum (v_w2c v) f k = 1%Qc;
  wf_normal : num_normal (v_id_to_word v) (rev (classes_of (v_w2c v) f n)) = Ok (v_num_normal v);
  wf_unigram : forall u, v_unigram v = Some u -> length u = length (v_id_to_word v)
}.

Lemma make_vocab_wf words oos w2c f n v :
  length w2c = length words -> NoDup (words ++ oos) -> (forall t, is_special t -> In t words) ->
  valid w2c n ->
  make_vocab (words ++ oos) w2c (classes_of w2c f n) = Ok v -> wf v (normalized w2c f) n.
Proof.
  intros Hl Hn Hs Hv H. apply make_vocab_spec in H; [|rewrite app_length; lia].
  destruct H as (_ & Hk & nn & En & ->).
  split; cbn [v_id_to_word v_w2c v_classes v_num_normal v_unigram]; auto.
  - rewrite app_length. lia.
  - intros t Ht. apply Hs in Ht. apply In_nth_error in Ht as [i Hi]. exists i.
    assert (i < length words) by (apply nth_error_Some; congruence).
    split; [now rewrite nth_error_app1|lia].
  - intros k Hk'. apply wsum_normalized. auto.
  - now rewrite (num_normal_classes _ _ _ f).
  - discriminate.
Qed.

(** ** Looking up words *)

Lemma last_index_some words s w i :
  last_index words s w = Some i -> exists j, i = s + j /\ nth_error words j = Some w.
Proof.
  revert s; induction words as [|x words IH]; intros s; cbn; [discriminate|].
  destruct (last_index words (S s) w) as [i'|] eqn:E.
  - intros H. injection H as <-. apply IH in E as (j & -> & Hj). exists (S j). split; [lia|exact Hj].
  - destruct (pystr_eq_dec w x) as [->|]; [|discriminate]. intros H. injection H as <-.
    exists 0. split; [lia|reflexivity].
Qed.

Lemma last_index_none words s w : last_index words s w = None <-> ~ In w words.
Proof.
  revert s; induction words as [|x words IH]; intros s; cbn; [tauto|].
  destruct (last_index words (S s) w) as [i'|] eqn:E.
  - split; [discriminate|]. intros H. exfalso. apply H. right.
    apply last_index_some in E as (j & _ & Hj). now apply nth_error_In in Hj.
  - apply IH in E. destruct (pystr_eq_dec w x) as [->|Hne].
    + split; [discriminate|]. intros H. exfalso. apply H. now left.
    + split; [|reflexivity]. intros _ [H|H]; [congruence|tauto].
Qed.

Lemma word_to_id_iff v w i : NoDup (v_id_to_word v) ->
  word_to_id v w = Some i <-> nth_error (v_id_to_word v) i = Some w.
Proof.
  intros Hn. unfold word_to_id. split.
  - intros H. apply last_index_some in H as (j & -> & Hj). exact Hj.
  - intros H. destruct (last_index (v_id_to_word v) 0 w) as [j|] eqn:E.
    + apply last_index_some in E as (j' & -> & Hj). cbn.
      rewrite NoDup_nth_error in Hn. f_equal. apply Hn; [apply nth_error_Some|]; congruence.
    + apply last_index_none in E. apply nth_error_In in H. tauto.
Qed.

Lemma wf_special_id v f n t : wf v f n -> is_special t ->
  exists i, word_to_id v t = Some i /\ i < length (v_w2c v).
Proof.
  intros H Ht. destruct (wf_special _ _ _ H t Ht) as (i & Hi & Hl). exists i.
  split; [|exact Hl]. apply word_to_id_iff; [apply H|exact Hi].
Qed.

Lemma special_cases : is_special SOS /\ is_special EOS /\ is_special UNK.
Proof. unfold is_special, specials. cbn [In]. tauto. Qed.

(** ** compute_probs *)

Lemma count_array_length v wc : length (count_array v wc) = length (v_id_to_word v).
Proof.
  unfold count_array.
  assert (H : forall l, length (fold_left (fun counts wc => match word_to_id v (fst wc) with
       | Some word_id => upd counts word_id (snd wc) | None => counts end) wc l) = length l).
  { induction wc as [|x wc IH]; intros l; cbn [fold_left]; [reflexivity|].
    rewrite IH. destruct (word_to_id v (fst x)); [apply upd_length|reflexivity]. }
  rewrite H. apply repeat_length.
Qed.

Lemma fold_class_set {A} (key : A -> nat) (g : A -> Qc) l : forall pre f id,
  NoDup (map fst pre ++ map key l) ->
  fold_left (fun c x => class_set c (key x) (g x)) l
            (mkClass id (pre ++ map (fun x => (key x, f x)) l))
  = mkClass id (pre ++ map (fun x => (key x, g x)) l).
Proof.
  induction l as [|x l IH]; intros pre f id Hn; cbn [map fold_left]; [reflexivity|].
  assert (E : class_set (mkClass id (pre ++ (key x, f x) :: map (fun x => (key x, f x)) l)) (key x) (g x)
              = mkClass id ((pre ++ [(key x, g x)]) ++ map (fun x => (key x, f x)) l)).
  { unfold class_set. cbn [wc_id wc_probs]. f_equal. rewrite <- app_assoc. cbn [app].
    cbn [map] in Hn. apply NoDup_remove_2 in Hn. rewrite in_app_iff in Hn.
    assert (Hp : ~ In (key x) (map fst pre)) by tauto. clear Hn.
    induction pre as [|[k0 v0] pre IHp]; cbn [app dict_set].
    - destruct (Nat.eq_dec (key x) (key x)); [reflexivity|congruence].
    - cbn in Hp. destruct (Nat.eq_dec (key x) k0) as [E0|]; [exfalso; apply Hp; left; congruence|]. f_equal. apply IHp. tauto. }
  rewrite E, IH, <- app_assoc; [reflexivity|].
  rewrite map_app, <- app_assoc. exact Hn.
Qed.

Definition csum (w2c counts : list nat) (k : nat) : nat :=
  list_sum (map (fun i => nth i counts 0%nat) (members w2c k)).
Definition count_prob (w2c counts : list nat) (i : nat) : Qc :=
  let k := class_idx w2c i in
  if 0 <? csum w2c counts k then (qc_of_nat (nth i counts 0%nat) / qc_of_nat (csum w2c counts k))%Qc
  else (1 / qc_of_nat (length (members w2c k)))%Qc.

Lemma update_class_of w2c f counts k :
  length w2c <= length counts ->
  update_class counts (class_of w2c f k) = Ok (class_of w2c (count_prob w2c counts) k).
Proof.
  intros Hl. unfold update_class.
  rewrite (mapM_ok _ (fun wp => (fst wp, nth (fst wp) counts 0))).
  2:{ intros [i p] Hi. cbn [fst]. apply in_map_iff in Hi as (j & E & Hj). injection E as -> _.
      apply in_members in Hj.
      assert (Hi : i < length counts) by (assert (i < length w2c) by (apply nth_error_Some; congruence); lia).
      unfold py_index. rewrite (nth_error_nth' counts 0 Hi). reflexivity. }
  cbn [bind].
  replace (list_sum (map snd (map (fun wp => (fst wp, nth (fst wp) counts 0)) (wc_probs (class_of w2c f k)))))
    with (csum w2c counts k)
    by (unfold csum, class_of; cbn [wc_probs]; now rewrite !map_map).
  cbn [class_of wc_probs].
  assert (Hidx : forall i, In i (members w2c k) -> class_idx w2c i = k).
  { intros i Hi. apply in_members in Hi. unfold class_idx. now rewrite (nth_error_nth _ _ 0 Hi). }
  destruct (0 <? csum w2c counts k) eqn:Ek.
  - apply f_equal.
    assert (Eq : class_of w2c (count_prob w2c counts) k = mkClass k (map (fun i =>
      (i, (qc_of_nat (nth i counts 0%nat) / qc_of_nat (csum w2c counts k))%Qc)) (members w2c k))).
    { unfold class_of. apply f_equal. apply map_ext_in. intros i Hi. unfold count_prob. cbn zeta.
      now rewrite (Hidx i Hi), Ek. }
    rewrite Eq.
    pose proof (fold_class_set (fun i : nat => i)
      (fun i => (qc_of_nat (nth i counts 0%nat) / qc_of_nat (csum w2c counts k))%Qc)
      (members w2c k) [] f k) as Hf. cbn [app map] in Hf.
    rewrite map_id in Hf. specialize (Hf (members_nodup _ _)). rewrite <- Hf. unfold class_of.
    generalize (mkClass k (map (fun i => (i, f i)) (members w2c k))).
    generalize (csum w2c counts k). generalize (members w2c k).
    intros l q. induction l as [|i l IH]; intros c; cbn [map fold_left fst snd]; [reflexivity|].
    apply IH.
  - apply f_equal.
    assert (Eq : class_of w2c (count_prob w2c counts) k = mkClass k (map (fun i =>
      (i, (1 / qc_of_nat (length (members w2c k)))%Qc)) (members w2c k))).
    { unfold class_of. apply f_equal. apply map_ext_in. intros i Hi. unfold count_prob. cbn zeta.
      now rewrite (Hidx i Hi), Ek. }
    rewrite Eq.
    pose proof (fold_class_set (fun i : nat => i)
      (fun i => (1 / qc_of_nat (length (members w2c k)))%Qc)
      (members w2c k) [] f k) as Hf. cbn [app map] in Hf.
    rewrite map_id in Hf. specialize (Hf (members_nodup _ _)). rewrite <- Hf.
    unfold class_len, class_of. cbn [wc_probs].
    replace (length (map (fun i => (i, f i)) (members w2c k))) with (length (members w2c k))
      by (now rewrite map_length).
    generalize (mkClass k (map (fun i => (i, f i)) (members w2c k))).
    generalize (1 / qc_of_nat (length (members w2c k)))%Qc.
    generalize (members w2c k). intros l q.
    induction l as [|i l IH]; intros c; cbn [map fold_left fst snd]; [reflexivity|].
    apply IH.
Qed.

Lemma wsum_count_prob w2c counts k :
  In k w2c -> wsum w2c (count_prob w2c counts) k = 1%Qc.
Proof.
  intros Hk. unfold wsum.
  assert (Hidx : forall i, In i (members w2c k) -> class_idx w2c i = k).
  { intros i Hi. apply in_members in Hi. unfold class_idx. now rewrite (nth_error_nth _ _ 0 Hi). }
  destruct (0 <? csum w2c counts k) eqn:Ek.
  - rewrite (map_ext_in _ (fun i => (qc_of_nat (nth i counts 0%nat) / qc_of_nat (csum w2c counts k))%Qc)).
    2:{ intros i Hi. unfold count_prob. cbn zeta. now rewrite (Hidx i Hi), Ek. }
    rewrite qsum_map_div. rewrite <- (map_map (fun i => nth i counts 0%nat) qc_of_nat), qsum_of_nat.
    fold (csum w2c counts k). apply qc_div_self, qc_of_nat_neq. now apply Nat.ltb_lt.
  - rewrite (map_ext_in _ (fun i => (1 / qc_of_nat (length (members w2c k)))%Qc)).
    2:{ intros i Hi. unfold count_prob. cbn zeta. now rewrite (Hidx i Hi), Ek. }
    rewrite qsum_const. unfold Qcdiv. rewrite Qcmult_1_l. apply Qcmult_inv_r, qc_of_nat_neq.
    apply members_nonempty in Hk. destruct (members w2c k); [congruence|cbn; lia].
Qed.

Lemma count_prob_nonneg w2c counts i : (0 <= count_prob w2c counts i)%Qc.
Proof.
  unfold count_prob. cbn zeta. destruct (0 <? _); apply qc_div_nonneg; try apply qc_of_nat_nonneg. discriminate.
Qed.

Definition floor_special (v : vocabulary) (counts : list nat) : list nat :=
  fold_left (fun counts t => match word_to_id v t with
                             | Some i => upd counts i (Nat.max (nth i counts 0%nat) 1)
                             | None => counts end) specials counts.

Lemma compute_probs_spec v f n wc b :
  wf v f n ->
  compute_probs v wc b =
  Ok (mkVocab (v_id_to_word v) (v_w2c v)
        (classes_of (v_w2c v)
           (if b then count_prob (v_w2c v) (floor_special v (count_array v wc)) else f) n)
        (v_num_normal v) (Some (unigram_of (count_array v wc)))).
Proof.
  intros H. unfold compute_probs. destruct special_cases as (S1 & S2 & S3).
  destruct (wf_special_id _ _ _ _ H S1) as (i1 & E1 & L1).
  destruct (wf_special_id _ _ _ _ H S2) as (i2 & E2 & L2).
  destruct (wf_special_id _ _ _ _ H S3) as (i3 & E3 & L3).
  rewrite E1, E2, E3. rewrite (wf_classes _ _ _ H). destruct b; [|reflexivity].
  unfold floor_special, specials. cbn [fold_left]. rewrite E1, E2, E3.
  match goal with |- context [update_class ?c] => set (counts := c) end.
  assert (Hl : length (v_w2c v) <= length counts).
  { unfold counts. rewrite !upd_length, count_array_length. apply H. }
  unfold classes_of. erewrite mapM_ok.
  2:{ intros c Hc. apply in_map_iff in Hc as (k & <- & _).
      rewrite (update_class_of _ _ _ _ Hl).
      instantiate (1 := fun c => class_of (v_w2c v) (count_prob (v_w2c v) counts) (wc_id c)). reflexivity. }
  cbn [bind]. now rewrite map_map.
Qed.

Lemma unigram_of_length counts : length (unigram_of counts) = length counts.
Proof. unfold unigram_of. destruct (0 <? list_sum counts); apply map_length. Qed.

Lemma compute_probs_wf v f n wc b v' :
  wf v f n -> compute_probs v wc b = Ok v' ->
  wf v' (if b then count_prob (v_w2c v) (floor_special v (count_array v wc)) else f) n.
Proof.
  intros H E. rewrite (compute_probs_spec _ _ _ _ _ H) in E. injection E as <-.
  split; cbn [v_id_to_word v_w2c v_classes v_num_normal v_unigram]; try apply H; auto.
  - intros k Hk. destruct b; [|now apply H]. apply wsum_count_prob. now apply (wf_valid _ _ _ H).
  - rewrite (num_normal_classes _ _ _ f). apply H.
  - intros u E. injection E as <-. now rewrite unigram_of_length, count_array_length.
Qed.
