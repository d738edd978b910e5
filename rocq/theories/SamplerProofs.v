(** Proofs about text generation. *)
From Coq Require Import QArith Qcanon.
From Verif Require Import Base BaseLib ListLib Strings Dict TextSpec TextProofs VocabModel VocabSpec VocabProofs VocabBuild VocabStats NetModel NetColumns NetStepCols SamplerModel SamplerSpec.
Local Open Scope nat_scope.

Section Run.
Context {P X : Type}.
Variable step : list nat -> list nat -> X -> result (list (list P) * X).
Lemma runs_snoc xs st ps st1 w c p st2 :
  runs step xs st ps st1 -> step w c st1 = Ok (p, st2) -> runs step (xs ++ [(w, c)]) st (ps ++ [p]) st2.
Proof.
  induction 1 as [st0|w0 c0 r st0 p0 st01 ps0 st02 E R IH]; intros H; cbn [app].
  - econstructor; [exact H|constructor].
  - econstructor; [exact E|]. now apply IH.
Qed.
End Run.

Lemma row_length {A B} (f : nat -> A -> B) l : forall j, length (row f j l) = length l.
Proof. induction l as [|a l IH]; intros j; cbn [row length]; [reflexivity|]. now rewrite IH. Qed.
Lemma row_nth {A B} (f : nat -> A -> B) l : forall j i a, nth_error l i = Some a -> nth_error (row f j l) i = Some (f (j + i) a).
Proof.
  induction l as [|x l IH]; intros j [|i] a; cbn [row nth_error]; try discriminate.
  - intros [= ->]. now rewrite Nat.add_0_r.
  - intros H. replace (j + S i) with (S j + i) by lia. now apply IH.
Qed.
Lemma rowM_nth {A B} (f : nat -> A -> result B) l : forall j bs, rowM f j l = Ok bs ->
  length bs = length l /\ forall i a, nth_error l i = Some a -> exists b, f (j + i) a = Ok b /\ nth_error bs i = Some b.
Proof.
  induction l as [|x l IH]; intros j bs; cbn [rowM].
  - intros [= <-]. split; [reflexivity|]. intros [|i] a; discriminate.
  - destruct (f j x) as [b|] eqn:E; cbn [bind]; [|discriminate].
    destruct (rowM f (S j) l) as [bs'|] eqn:E'; cbn [bind]; [|discriminate]. intros [= <-].
    destruct (IH _ _ E') as [L H]. split; [cbn; congruence|]. intros [|i] a; cbn [nth_error].
    + intros [= <-]. rewrite Nat.add_0_r. eauto.
    + intros Ha. replace (j + S i) with (S j + i) by lia. now apply H.
Qed.
Lemma rowM_ok {A B} (f : nat -> A -> result B) l : forall j,
  (forall i a, nth_error l i = Some a -> exists b, f (j + i) a = Ok b) -> exists bs, rowM f j l = Ok bs.
Proof.
  induction l as [|x l IH]; intros j H; cbn [rowM]; [eauto|].
  destruct (H 0 x eq_refl) as (b & E). rewrite Nat.add_0_r in E. rewrite E. cbn [bind].
  destruct (IH (S j)) as (bs & ->).
  - intros i a Ha. replace (S j + i) with (j + S i) by lia. now apply H.
  - cbn [bind]. eauto.
Qed.

Lemma py_index_some {A} (l : list A) i a : py_index l i = Ok a <-> nth_error l i = Some a.
Proof. unfold py_index. destruct (nth_error l i); split; congruence. Qed.

Lemma nth_error_firstn_lt {A} (l : list A) n i : i < n -> nth_error (firstn n l) i = nth_error l i.
Proof. revert n i. induction l as [|a l IH]; intros [|n] [|i] H; cbn; try lia; auto. apply IH. lia. Qed.
Lemma upd_at {A} (done rest : list A) x y : upd (done ++ x :: rest) (length done) y = done ++ y :: rest.
Proof. induction done as [|d done IH]; cbn; [reflexivity|]. now rewrite IH. Qed.
Lemma nth_snoc {A} (l : list A) x t y : nth_error (l ++ [x]) t = Some y ->
  (t < length l /\ nth_error l t = Some y) \/ (t = length l /\ y = x).
Proof.
  intros H. destruct (Nat.lt_ge_cases t (length l)) as [L|L].
  - left. rewrite nth_error_app1 in H by exact L. auto.
  - rewrite nth_error_app2 in H by exact L. destruct (t - length l) as [|k] eqn:E.
    + right. cbn in H. split; [lia|congruence].
    + destruct k; discriminate.
Qed.
Lemma firstn_app_le {A} (l l' : list A) t : t <= length l -> firstn t (l ++ l') = firstn t l.
Proof. intros H. rewrite firstn_app. replace (t - length l) with 0 by lia. cbn. now rewrite app_nil_r. Qed.

Section Sampler.
Context {P X : Type}.
Variable step : list nat -> list nat -> X -> result (list (list P) * X).
Variable initial : X.
Variable draw_class : nat -> nat -> list P -> nat.
Variable draw_word : nat -> nat -> list Qc -> nat.
Variable v : vocabulary.
Variable n : nat.
Variable seed : list pystr.

Notation gen := (generated step initial draw_class draw_word v n).

(** The words and classes so far; the last of them have not been given to the network. *)
Definition at_time (t : nat) (blank : list (list nat)) (s : sampler X) : Prop :=
  exists words classes w c ps,
    length words = t /\ gen seed (words ++ [w]) (classes ++ [c]) /\
    s_rows s = words ++ w :: blank /\ s_words s = w /\ s_classes s = c /\
    runs step (combine words classes) initial ps (s_state s).

Lemma combine_snoc {A B} (l : list A) (l' : list B) a b : length l = length l' ->
  combine (l ++ [a]) (l' ++ [b]) = combine l l' ++ [(a, b)].
Proof.
  revert l'. induction l as [|x l IH]; intros [|y l']; cbn; try discriminate; [reflexivity|].
  intros [= E]. now rewrite IH.
Qed.

Lemma gen_snoc words classes w c :
  gen seed words classes -> length w = n ->
  (forall token, nth_error (SOS :: seed) (length words) = Some token ->
     exists id class_id, has_ids v token id class_id /\ w = repeat id n /\ c = repeat class_id n) ->
  (length seed < length words ->
     exists probs p st, runs step (combine words classes) initial (probs ++ [p]) st /\ length p = n /\
        forall j distribution, nth_error p j = Some distribution ->
          exists class_id wc id,
            class_id = draw_class (length words) j distribution /\ nth_error c j = Some class_id /\
            nth_error (v_classes v) class_id = Some wc /\
            nth_error (map fst (wc_probs wc)) (draw_word (length words) j (map snd (wc_probs wc))) = Some id /\
            nth_error w j = Some id) ->
  gen seed (words ++ [w]) (classes ++ [c]).
Proof.
  intros [L R G D] Hw Hg Hd. constructor.
  - rewrite !app_length. cbn. lia.
  - intros t x E. apply nth_snoc in E as [[_ E]|[_ ->]]; eauto.
  - intros t token x y Et Ex Ey. apply nth_snoc in Ex as [[Lx Ex]|[-> ->]]; apply nth_snoc in Ey as [[Ly Ey]|[Ly Ey]]; try lia; eauto.
    subst y. now apply Hg.
  - intros t x y Ht Ex Ey. apply nth_snoc in Ex as [[Lx Ex]|[-> ->]]; apply nth_snoc in Ey as [[Ly Ey]|[Ly Ey]]; try lia.
    + rewrite !firstn_app_le by lia. eauto.
    + subst y. rewrite !firstn_app_le by lia. rewrite firstn_all. replace (firstn (length words) classes) with classes by (rewrite <- L; symmetry; apply firstn_all). now apply Hd.
Qed.

Lemma seed_loop_ok tokens : forall t blank s s',
  at_time t blank s -> (forall i token, nth_error tokens i = Some token -> nth_error (SOS :: seed) (S t + i) = Some token) ->
  t + length tokens <= length seed ->
  seed_loop step v n (S t) tokens s = Ok s' -> at_time (t + length tokens) (skipn (length tokens) blank) s' /\ length tokens <= length blank.
Proof.
  induction tokens as [|token tokens IH]; intros t blank s s' A Ht Hl; cbn [seed_loop length skipn].
  - intros [= <-]. rewrite Nat.add_0_r. split; [exact A|lia].
  - destruct A as (words & classes & w & c & ps & Lt & G & Er & Ew & Ec & R). 
    destruct (step (s_words s) (s_classes s) (s_state s)) as [[p st]|] eqn:Es; cbn [bind]; [|discriminate].
    unfold token_id. destruct (word_to_id v token) as [id|] eqn:Ei; cbn [bind]; [|discriminate].
    destruct (py_index (v_w2c v) id) as [class_id|] eqn:Ecl; cbn [bind]; [|discriminate]. apply py_index_some in Ecl.
    unfold set_row. rewrite Er. destruct (Nat.ltb_spec (S t) (length (words ++ w :: blank))) as [Lb|Lb]; cbn [negb bind]; [|discriminate].
    rewrite app_length in Lb. cbn [length] in Lb. rewrite repeat_length, Nat.eqb_refl. cbn [negb bind].
    destruct blank as [|b0 blank]; [cbn [length] in Lb; lia|]. cbn [length skipn] in *.
    intros H. 
    assert (Lc : length classes = length words).
    { pose proof (g_same_length _ _ _ _ _ _ _ _ _ G) as L. rewrite !app_length in L. cbn in L. lia. }
    apply (IH (S t) blank) in H.
    + replace (t + S (length tokens)) with (S t + length tokens) by lia. split; [apply H|lia].
    + exists (words ++ [w]), (classes ++ [c]), (repeat id n), (repeat class_id n), (ps ++ [p]).
      split; [rewrite app_length; cbn; lia|]. cbn [s_rows s_words s_classes s_state].
      split; [|split; [|split; [reflexivity|split; [reflexivity|]]]].
      * apply gen_snoc; [exact G|apply repeat_length|..].
        -- intros token' E. rewrite app_length in E. cbn [length] in E. 
           specialize (Ht 0 token eq_refl). replace (S t + 0) with (length words + 1) in Ht by lia.
           assert (token' = token) as -> by congruence. exists id, class_id. split; [now split|auto].
        -- rewrite app_length. cbn [length]. lia.
      * replace (words ++ w :: b0 :: blank) with ((words ++ [w]) ++ b0 :: blank) by now rewrite <- app_assoc.
        replace (S t) with (length (words ++ [w])) by (rewrite app_length; cbn; lia). now rewrite upd_at.
      * rewrite combine_snoc by congruence. eapply runs_snoc; [exact R|]. now rewrite <- Ew, <- Ec.
    + intros i tk E. replace (S (S t) + i) with (S t + S i) by lia. now apply Ht.
    + lia.
Qed.

Lemma sample_loop_ok steps : forall t blank s s',
  at_time t blank s -> length seed <= t ->
  sample_loop step draw_class draw_word v n steps (S t) s = Ok s' -> at_time (t + steps) (skipn steps blank) s' /\ steps <= length blank.
Proof.
  induction steps as [|steps IH]; intros t blank s s' A Hl; cbn [sample_loop skipn].
  - intros [= <-]. rewrite Nat.add_0_r. split; [exact A|lia].
  - destruct A as (words & classes & w & c & ps & Lt & G & Er & Ew & Ec & R). 
    destruct (step (s_words s) (s_classes s) (s_state s)) as [[p st]|] eqn:Es; cbn [bind]; [|discriminate].
    destruct (class_ids_to_word_ids draw_word v (S t) (row (draw_class (S t)) 0 p)) as [ids|] eqn:Ei; cbn [bind]; [|discriminate].
    apply rowM_nth in Ei as [Li Ei]. rewrite row_length in Li.
    unfold set_row. rewrite Er. destruct (Nat.ltb_spec (S t) (length (words ++ w :: blank))) as [Lb|Lb]; cbn [negb bind]; [|discriminate].
    rewrite app_length in Lb. cbn [length] in Lb.
    destruct (Nat.eqb_spec (length ids) n) as [Ln|Ln]; cbn [negb bind]; [|discriminate].
    destruct blank as [|b0 blank]; [cbn [length] in Lb; lia|]. cbn [length skipn] in *.
    intros H. 
    assert (Lc : length classes = length words).
    { pose proof (g_same_length _ _ _ _ _ _ _ _ _ G) as L. rewrite !app_length in L. cbn in L. lia. }
    assert (R' : runs step (combine (words ++ [w]) (classes ++ [c])) initial (ps ++ [p]) st).
    { rewrite combine_snoc by congruence. eapply runs_snoc; [exact R|]. now rewrite <- Ew, <- Ec. }
    apply (IH (S t) blank) in H.
    + replace (t + S steps) with (S t + steps) by lia. split; [apply H|lia].
    + exists (words ++ [w]), (classes ++ [c]), ids, (row (draw_class (S t)) 0 p), (ps ++ [p]).
      split; [rewrite app_length; cbn; lia|]. cbn [s_rows s_words s_classes s_state].
      split; [|split; [|split; [reflexivity|split; [reflexivity|exact R']]]].
      * assert (Lw : length (words ++ [w]) = S t) by (rewrite app_length; cbn; lia).
        apply gen_snoc; [exact G|exact Ln|..].
        -- intros token' E. rewrite Lw in E. cbn [nth_error] in E.
           assert (t < length seed) by (apply nth_error_Some; congruence). lia.
        -- intros _. exists ps, p, st. split; [exact R'|]. split; [congruence|]. rewrite Lw.
           intros j d Hd. pose proof (row_nth (draw_class (S t)) p 0 j d Hd) as Hr. cbn [Nat.add] in Hr.
           destruct (Ei j _ Hr) as (id & E & Hid). cbn [Nat.add] in E.
           destruct (py_index (v_classes v) (draw_class (S t) j d)) as [wc|] eqn:Ewc; cbn [bind] in E; [|discriminate].
           apply py_index_some in Ewc. unfold sample_word in E. apply py_index_some in E.
           exists (draw_class (S t) j d), wc, id. repeat split; auto.
      * replace (words ++ w :: b0 :: blank) with ((words ++ [w]) ++ b0 :: blank) by now rewrite <- app_assoc.
        replace (S t) with (length (words ++ [w])) by (rewrite app_length; cbn; lia). now rewrite upd_at.
    + lia.
Qed.
End Sampler.

Lemma mapM_forall2 {A B} (f : A -> result B) l : forall l', mapM f l = Ok l' -> Forall2 (fun a b => f a = Ok b) l l'.
Proof.
  induction l as [|a l IH]; intros l'; cbn [mapM].
  - intros [= <-]. constructor.
  - destruct (f a) as [b|] eqn:E; cbn [bind]; [|discriminate].
    destruct (mapM f l) as [bs|]; cbn [bind]; [|discriminate]. intros [= <-]. constructor; auto.
Qed.
Lemma Forall2_nth {A B} (R : A -> B -> Prop) l l' : Forall2 R l l' ->
  length l = length l' /\ forall i a b, nth_error l i = Some a -> nth_error l' i = Some b -> R a b.
Proof.
  induction 1 as [|a b l l' Hab _ [L IH]]; split; cbn; auto.
  - intros [|i]; discriminate.
  - intros [|i] x y; cbn; [now intros [= <-] [= <-]|eauto].
Qed.

Lemma mapM_exists {A B} (f : A -> result B) l : (forall a, In a l -> exists b, f a = Ok b) -> exists bs, mapM f l = Ok bs.
Proof.
  induction l as [|a l IH]; intros H; cbn [mapM]; [eauto|].
  destruct (H a (or_introl eq_refl)) as [b ->]. cbn [bind]. destruct IH as [bs ->]; [intros; apply H; now right|]. cbn [bind]. eauto.
Qed.

Section Generate.
Context {P X : Type}.
Variable step : list nat -> list nat -> X -> result (list (list P) * X).
Variable initial : X.
Variable draw_class : nat -> nat -> list P -> nat.
Variable draw_word : nat -> nat -> list Qc -> nat.
Variable v : vocabulary.
Variable n : nat.

Lemma start_ok sos_id sos_class_id seed total :
  token_id v SOS = Ok sos_id -> py_index (v_w2c v) sos_id = Ok sos_class_id ->
  at_time step initial draw_class draw_word v n seed 0 (repeat (repeat sos_id n) total)
    (mkSampler (repeat sos_id n) (repeat sos_class_id n) (repeat (repeat sos_id n) (S total)) initial).
Proof.
  intros Hs Hc. exists [], [], (repeat sos_id n), (repeat sos_class_id n), [].
  cbn [app length s_rows s_words s_classes s_state repeat]. split; [reflexivity|]. split; [|repeat (split; [reflexivity|]); constructor].
  constructor; cbn [length].
  - reflexivity.
  - intros [|[|t]] w; cbn; try discriminate. intros [= <-]. apply repeat_length.
  - intros [|[|t]] token w c; cbn [nth_error]; try discriminate. intros E [= <-] [= <-].
    assert (token = SOS) as -> by congruence. exists sos_id, sos_class_id. split; [|auto]. split.
    + unfold token_id in Hs. destruct (word_to_id v SOS); congruence.
    + now apply py_index_some.
  - intros [|[|t]] w c; cbn; try discriminate. lia.
Qed.

Theorem generate_ok length_ text sequences : 1 <= length_ ->
  generate step initial draw_class draw_word v length_ n text = Ok sequences ->
  exists words classes,
    length words = length (split (strip text)) + length_ /\
    generated step initial draw_class draw_word v n (split (strip text)) words classes /\
    length sequences = n /\
    forall j sequence, nth_error sequences j = Some sequence -> text_of v words j sequence.
Proof.
  intros Hl. unfold generate. set (seed := split (strip text)).
  destruct (token_id v SOS) as [sos_id|] eqn:Es; cbn [bind]; [|discriminate].
  destruct (py_index (v_w2c v) sos_id) as [sos_class_id|] eqn:Ec; cbn [bind]; [|discriminate].
  replace (length seed + length_) with (S (length seed + (length_ - 1))) by lia.
  destruct (seed_loop _ _ _ _ _ _) as [s1|] eqn:E1; cbn [bind]; [|discriminate].
  apply (seed_loop_ok step initial draw_class draw_word v n seed seed 0 _ _ _ (start_ok _ _ seed _ Es Ec)) in E1 as [A1 L1]; [|auto|lia].
  destruct (sample_loop _ _ _ _ _ _ _ _) as [s2|] eqn:E2; cbn [bind]; [|discriminate].
  replace (length seed + 1) with (S (length seed)) in E2 by lia.
  apply (sample_loop_ok step initial draw_class draw_word v n seed _ _ _ _ _ A1 ltac:(lia)) in E2 as [A2 L2].
  destruct A2 as (words & classes & w & c & ps & Lw & G & Er & _). intros H.
  assert (B : skipn (length_ + length seed - S (length seed)) (skipn (length seed) (repeat (repeat sos_id n) (length seed + (length_ - 1)))) = []).
  { apply length_zero_iff_nil. rewrite !skipn_length, repeat_length. lia. }
  rewrite B in Er. unfold to_words in H. apply mapM_forall2, Forall2_nth in H as [L H]. rewrite seq_length in L.
  exists (words ++ [w]), (classes ++ [c]). split; [|split; [exact G|split; [congruence|]]].
  - rewrite app_length. cbn [length]. lia.
  - intros j sequence Hj. assert (j < n) by (rewrite L; apply nth_error_Some; congruence).
    assert (Hs : nth_error (seq 0 n) j = Some j) by (rewrite nth_error_seq; destruct (Nat.ltb_spec j n); [reflexivity|lia]).
    specialize (H j j sequence Hs Hj). cbn beta in H. rewrite Er in H.
    apply mapM_forall2 in H. unfold text_of. clear - H. induction H as [|ids token rows tokens E F IH]; constructor; [|exact IH].
    destruct (py_index ids j) as [id|] eqn:Ei; cbn [bind] in E; [|discriminate]. exists id. split; now apply py_index_some.
Qed.

Lemma has_ids_word token id class_id : has_ids v token id class_id -> nth_error (v_id_to_word v) id = Some token.
Proof. intros [H _]. unfold word_to_id in H. now apply last_index_some in H as (j & -> & H). Qed.
Lemma nth_error_repeat_inv {A} (a b : A) j m : nth_error (repeat a m) j = Some b -> b = a.
Proof. intros H. apply nth_error_In, repeat_spec in H. exact H. Qed.

Theorem generated_text seed words classes j sequence total : generated step initial draw_class draw_word v n seed words classes ->
  length words = length seed + total -> 1 <= total -> text_of v words j sequence ->
  exists sampled, sequence = SOS :: seed ++ sampled /\ length sampled = total - 1 /\ Forall (fun w => In w (v_id_to_word v)) sampled.
Proof.
  intros G L Ht T. unfold text_of in T. apply Forall2_nth in T as T'. destruct T' as [LT T'].
  exists (skipn (length (SOS :: seed)) sequence). split; [|split].
  - replace (SOS :: seed ++ skipn (length (SOS :: seed)) sequence) with ((SOS :: seed) ++ skipn (length (SOS :: seed)) sequence) by reflexivity.
    rewrite <- (firstn_skipn (length (SOS :: seed)) sequence) at 1. f_equal.
    apply nth_error_ext. intros t. destruct (Nat.lt_ge_cases t (length (SOS :: seed))) as [Lt|Lt].
    + rewrite nth_error_firstn_lt by exact Lt.
      destruct (nth_error (SOS :: seed) t) as [token|] eqn:Et; [|apply nth_error_None in Et; lia].
      cbn [length] in Lt.
      destruct (nth_error words t) as [w|] eqn:Ew; [|apply nth_error_None in Ew; lia].
      destruct (nth_error classes t) as [c|] eqn:Ec; [|apply nth_error_None in Ec; rewrite (g_same_length _ _ _ _ _ _ _ _ _ G) in Ec; lia].
      destruct (nth_error sequence t) as [x|] eqn:Ex; [|apply nth_error_None in Ex; lia].
      destruct (T' t w x Ew Ex) as (id & Hid & Hx).
      destruct (g_given _ _ _ _ _ _ _ _ _ G t token w c Et Ew Ec) as (id' & cl & Hi & -> & _).
      apply nth_error_repeat_inv in Hid as ->. apply has_ids_word in Hi. congruence.
    + rewrite (proj2 (nth_error_None (SOS :: seed) t)) by exact Lt. apply nth_error_None. rewrite firstn_length. lia.
  - rewrite skipn_length. cbn [length]. lia.
  - apply Forall_forall. intros x Hx.
    assert (Hx' : In x sequence) by (rewrite <- (firstn_skipn (length (SOS :: seed)) sequence); apply in_or_app; auto).
    apply In_nth_error in Hx' as [t Et]. destruct (nth_error words t) as [w|] eqn:Ew.
    + destruct (T' t w x Ew Et) as (id & _ & H). now apply nth_error_In in H.
    + apply nth_error_None in Ew. assert (t < length sequence) by (apply nth_error_Some; congruence). lia.
Qed.

(** A word that has been drawn is in the class that has been drawn. *)
Theorem drawn_word seed words classes t w c j id : reachable_vocab v -> generated step initial draw_class draw_word v n seed words classes ->
  nth_error words t = Some w -> nth_error classes t = Some c -> nth_error w j = Some id ->
  id < num_shortlist_words v /\ nth_error c j = nth_error (v_w2c v) id.
Proof.
  intros R G Ew Ec Ej. destruct (Nat.lt_ge_cases (length seed) t) as [Ht|Ht].
  - destruct (g_drawn _ _ _ _ _ _ _ _ _ G t w c Ht Ew Ec) as (ps & p & st & _ & Lp & D).
    destruct (nth_error p j) as [d|] eqn:Ed.
    + destruct (D j d Ed) as (cl & wc & id' & _ & Hc & Hwc & Hm & Hw). assert (id' = id) as -> by congruence.
      apply nth_error_In in Hm. destruct (vocab_class_shape v cl wc R Hwc) as (_ & _ & _ & S & _).
      split; [now apply S|]. destruct (vocab_partition v id R (S _ Hm)) as (k & Hk & _ & U).
      apply (U cl wc Hwc) in Hm as ->. congruence.
    + apply nth_error_None in Ed. pose proof (g_rows _ _ _ _ _ _ _ _ _ G t w Ew).
      assert (j < length w) by (apply nth_error_Some; congruence). lia.
  - destruct (nth_error (SOS :: seed) t) as [token|] eqn:Et; [|apply nth_error_None in Et; cbn in Et; lia].
    destruct (g_given _ _ _ _ _ _ _ _ _ G t token w c Et Ew Ec) as (id' & cl & [_ H] & -> & ->).
    pose proof (nth_error_repeat_inv _ _ _ _ Ej). subst id'.
    assert (j < n) by (rewrite <- (repeat_length id n); apply nth_error_Some; congruence).
    split; [apply nth_error_Some; unfold num_shortlist_words; congruence|]. rewrite nth_error_repeat by assumption. auto.
Qed.
End Generate.

(** ** Generation that succeeds *)
Section Succeeds.
Context {P X : Type}.
Variable step : list nat -> list nat -> X -> result (list (list P) * X).
Variable initial : X.
Variable draw_class : nat -> nat -> list P -> nat.
Variable draw_word : nat -> nat -> list Qc -> nat.
Variable v : vocabulary.
Variable n : nat.
Variable good : X -> Prop.
Hypothesis R : reachable_vocab v.
Hypothesis good_step : forall words classes st, good st -> length words = n -> length classes = n ->
  Forall (fun id => id < num_shortlist_words v) words -> Forall (fun c => c < length (v_classes v)) classes ->
  exists p st', step words classes st = Ok (p, st') /\ good st' /\ length p = n /\
    forall d, In d p -> length d = length (v_classes v).
Hypothesis draws_class : forall t j d, length d = length (v_classes v) -> draw_class t j d < length d.
Hypothesis draws_word : forall t j probs, probs <> [] -> draw_word t j probs < length probs.

Definition ready (total : nat) (s : sampler X) : Prop :=
  good (s_state s) /\ length (s_words s) = n /\ length (s_classes s) = n /\
  Forall (fun id => id < num_shortlist_words v) (s_words s) /\ Forall (fun c => c < length (v_classes v)) (s_classes s) /\
  length (s_rows s) = total /\ Forall (fun r => length r = n /\ Forall (fun id => id < num_shortlist_words v) r) (s_rows s).

Lemma set_row_ok rows t ids : t < length rows -> length ids = n -> set_row n rows t ids = Ok (upd rows t ids).
Proof. intros H E. unfold set_row. rewrite E, Nat.eqb_refl. now destruct (Nat.ltb_spec t (length rows)); [|lia]. Qed.
Lemma upd_forall {A} (Q : A -> Prop) l t x : Forall Q l -> Q x -> Forall Q (upd l t x).
Proof.
  intros F Hx. revert t. induction F as [|y l Hy F IH]; intros [|t]; cbn [upd]; constructor; auto.
Qed.
Lemma repeat_forall {A} (Q : A -> Prop) x m : Q x -> Forall Q (repeat x m).
Proof. intros H. apply Forall_forall. intros y Hy. now apply repeat_spec in Hy as ->. Qed.

Lemma known_ids token : In token (v_id_to_word v) -> (forall id, word_to_id v token = Some id -> id < num_shortlist_words v) ->
  exists id class_id, token_id v token = Ok id /\ py_index (v_w2c v) id = Ok class_id /\ id < num_shortlist_words v /\ class_id < length (v_classes v).
Proof.
  intros Hin Hs. unfold token_id. destruct (word_to_id v token) as [id|] eqn:E.
  - specialize (Hs id eq_refl). destruct (vocab_partition v id R Hs) as (k & Hk & Lk & _).
    exists id, k. repeat split; auto. now apply py_index_some.
  - exfalso. unfold word_to_id in E. apply last_index_none in E. auto.
Qed.

Lemma seed_loop_succeeds total tokens : forall t s, ready total s -> t + length tokens <= total ->
  Forall (fun token => exists id, word_to_id v token = Some id /\ id < num_shortlist_words v) tokens ->
  exists s', seed_loop step v n t tokens s = Ok s' /\ ready total s'.
Proof.
  induction tokens as [|token tokens IH]; intros t s Rd L F; cbn [seed_loop length] in *; [eauto|].
  destruct Rd as (G & Lw & Lc & Fw & Fc & Lr & Fr).
  destruct (good_step _ _ _ G Lw Lc Fw Fc) as (p & st & -> & G' & _). cbn [bind].
  inversion_clear F as [|? ? (id & Ei & Hid) F'].
  unfold token_id. rewrite Ei. cbn [bind]. destruct (vocab_partition v id R Hid) as (k & Hk & Lk & _).
  apply py_index_some in Hk. rewrite Hk. cbn [bind]. rewrite set_row_ok by (rewrite ?repeat_length; lia). cbn [bind].
  apply IH; [|lia|exact F']. unfold ready. cbn [s_words s_classes s_rows s_state]. rewrite !repeat_length, upd_length.
  repeat split; auto; try now apply repeat_forall.
  apply upd_forall; [exact Fr|]. split; [apply repeat_length|now apply repeat_forall].
Qed.

Lemma sample_loop_succeeds total steps : forall t s, ready total s -> t + steps <= total ->
  exists s', sample_loop step draw_class draw_word v n steps t s = Ok s' /\ ready total s'.
Proof.
  induction steps as [|steps IH]; intros t s Rd L; cbn [sample_loop]; [eauto|].
  destruct Rd as (G & Lw & Lc & Fw & Fc & Lr & Fr).
  destruct (good_step _ _ _ G Lw Lc Fw Fc) as (p & st & -> & G' & Lp & Hp). cbn [bind].
  assert (C : Forall (fun c => c < length (v_classes v)) (row (draw_class t) 0 p)).
  { apply Forall_forall. intros c Hc. apply In_nth_error in Hc as [i Hi].
    assert (Hl : i < length p) by (rewrite <- (row_length (draw_class t) p 0); apply nth_error_Some; congruence).
    destruct (nth_error p i) as [d|] eqn:Ed; [|apply nth_error_None in Ed; lia].
    rewrite (row_nth _ _ _ _ _ Ed) in Hi. injection Hi as <-. apply nth_error_In in Ed.
    pose proof (Hp _ Ed) as Ld. pose proof (draws_class t i d Ld). rewrite <- Ld. assumption. }
  assert (W : forall i c, nth_error (row (draw_class t) 0 p) i = Some c ->
     exists id, (do wc <- py_index (v_classes v) c; sample_word draw_word t (0 + i) wc) = Ok id /\ id < num_shortlist_words v).
  { intros i c Hc. apply nth_error_In in Hc. rewrite Forall_forall in C. specialize (C c Hc).
    destruct (nth_error (v_classes v) c) as [wc|] eqn:Ewc; [|apply nth_error_None in Ewc; lia].
    destruct (vocab_class_shape v c wc R Ewc) as (_ & NE & _ & S & _).
    apply py_index_some in Ewc. rewrite Ewc. cbn [bind]. unfold sample_word.
    assert (Lt : draw_word t (0 + i) (map snd (wc_probs wc)) < length (map fst (wc_probs wc))).
    { rewrite map_length, <- (map_length snd). apply draws_word. destruct (wc_probs wc); [congruence|discriminate]. }
    destruct (nth_error (map fst (wc_probs wc)) (draw_word t (0 + i) (map snd (wc_probs wc)))) as [id|] eqn:E;
      [|apply nth_error_None in E; lia].
    exists id. split; [now apply py_index_some|]. apply S. now apply nth_error_In in E. }
  unfold class_ids_to_word_ids.
  destruct (rowM_ok (fun j class_id => do wc <- py_index (v_classes v) class_id; sample_word draw_word t j wc) (row (draw_class t) 0 p) 0) as [ids E].
  { intros i c Hc. destruct (W i c Hc) as (id & Hid & _). eauto. }
  rewrite E. cbn [bind]. apply rowM_nth in E as [Li E]. rewrite row_length in Li.
  assert (D : Forall (fun id => id < num_shortlist_words v) ids).
  { apply Forall_forall. intros x Hx. apply In_nth_error in Hx as [i Hi].
    assert (Hl : i < length (row (draw_class t) 0 p)) by (rewrite row_length, <- Li; apply nth_error_Some; congruence).
    destruct (nth_error (row (draw_class t) 0 p) i) as [c|] eqn:Ec; [|apply nth_error_None in Ec; lia].
    destruct (W i c Ec) as (id & Hid & Lid). destruct (E i c Ec) as (b & Hb & Hib). congruence. }
  rewrite set_row_ok by (rewrite ?Lr; lia). cbn [bind].
  apply IH; [|lia]. unfold ready. cbn [s_words s_classes s_rows s_state]. rewrite row_length, upd_length.
  repeat split; auto; try lia.
  apply upd_forall; [exact Fr|]. split; [lia|exact D].
Qed.

Theorem generate_succeeds length_ text : 1 <= length_ -> good initial ->
  Forall (fun token => exists id, word_to_id v token = Some id /\ id < num_shortlist_words v) (split (strip text)) ->
  exists sequences, generate step initial draw_class draw_word v length_ n text = Ok sequences.
Proof.
  intros Hl Hg Hs. unfold generate. set (seed := split (strip text)) in *.
  destruct (vocab_specials v SOS R (or_introl eq_refl)) as (sos & Esos & Hsos).
  unfold token_id at 1. rewrite Esos. cbn [bind].
  destruct (vocab_partition v sos R Hsos) as (k & Hk & Lk & _). apply py_index_some in Hk. rewrite Hk. cbn [bind].
  destruct (seed_loop_succeeds (length seed + length_) seed 1
    (mkSampler (repeat sos n) (repeat k n) (repeat (repeat sos n) (length seed + length_)) initial)) as (s1 & -> & R1).
  { unfold ready. cbn [s_words s_classes s_rows s_state]. rewrite !repeat_length. repeat split; auto; try now apply repeat_forall.
    apply repeat_forall. split; [apply repeat_length|now apply repeat_forall]. }
  { lia. } { exact Hs. }
  cbn [bind].
  destruct (sample_loop_succeeds (length seed + length_) (length_ + length seed - (length seed + 1)) (length seed + 1) s1 R1) as (s2 & -> & R2); [lia|].
  cbn [bind]. destruct R2 as (_ & _ & _ & _ & _ & _ & F). unfold to_words. apply mapM_exists.
  intros j Hj. apply in_seq in Hj. apply mapM_exists. intros r Hr. rewrite Forall_forall in F. destruct (F r Hr) as [Lr Fr].
  destruct (nth_error r j) as [id|] eqn:E; [|apply nth_error_None in E; lia].
  apply nth_error_In in E as Hin. apply py_index_some in E. rewrite E. cbn [bind].
  rewrite Forall_forall in Fr. specialize (Fr id Hin). destruct (reachable_wf v R) as (f & m & W).
  pose proof (wf_short v f m W). unfold num_shortlist_words in Fr.
  destruct (nth_error (v_id_to_word v) id) as [w|] eqn:Ew; [|apply nth_error_None in Ew; lia].
  exists w. now apply py_index_some.
Qed.
End Succeeds.

(** ** What is printed *)
Lemma cut_after_spec l : up_to_eos l (cut_after EOS l).
Proof.
  induction l as [|x l IH]; cbn [cut_after].
  - left. split; [intros []|reflexivity].
  - unfold pystr_eqb. destruct (pystr_eq_dec x EOS) as [->|NE].
    + right. exists [], l. repeat split. intros [].
    + destruct IH as [[N ->]|(a & b & -> & N & ->)].
      * left. split; [|reflexivity]. intros [H|H]; auto.
      * right. exists (x :: a), b. repeat split. intros [H|H]; auto.
Qed.

(** ** Networks *)
Section Network.
Context {A : arith}.
Variable s : nat.
Lemma step_network_col (nn : network A) words classes st p st' :
  step_network nn words classes st = Ok (p, st') ->
  step_network nn (sel s words) (sel s classes) (map (sel s) st) = Ok (sel s p, map (sel s) st').
Proof.
  unfold step_network. destruct (eval_network nn (Step st) _) as [[q st1]|] eqn:EN; cbn [bind]; [|discriminate].
  apply (eval_network_step_col s) in EN. unfold col in EN. cbn [b_words b_classes b_mask b_dropout map] in EN. rewrite EN. cbn [bind].
  unfold py_index. rewrite nth_error_map. destruct (nth_error q 0) as [p0|]; cbn [bind option_map]; [|discriminate].
  intros [= <- <-]. reflexivity.
Qed.
Lemma runs_col (nn : network A) inputs st ps st' : runs (step_network nn) inputs st ps st' ->
  runs (step_network nn) (map (fun x => (sel s (fst x), sel s (snd x))) inputs) (map (sel s) st) (map (sel s) ps) (map (sel s) st').
Proof.
  induction 1 as [st0|w c r st0 p st1 ps st2 E _ IH]; cbn [map fst snd]; [constructor|].
  econstructor; [|exact IH]. now apply step_network_col.
Qed.
Lemma initial_col (nn : network A) n : s < n -> map (sel s) (initial_state nn n) = initial_state nn 1.
Proof.
  intros H. unfold initial_state. rewrite map_map. apply map_ext. intros size. unfold zeros, sel.
  rewrite nth_error_repeat by exact H. reflexivity.
Qed.
End Network.
