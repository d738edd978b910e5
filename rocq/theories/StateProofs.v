(** Proofs about recurrent states. *)
From Verif Require Import Base BaseLib ListLib StateModel StateSpec.

Lemma F2_length X Y (P : X -> Y -> Prop) l m : Forall2 P l m -> length l = length m.
Proof. induction 1; cbn [length]; congruence. Qed.

Section Proofs.
Context {X : Type}.
Variable zero : X.
Notation array := (array X).
Notation state := (state X).

Lemma shape_eq (a : array) x y z : a_shape a = (x, y, z) <-> shape0 a = x /\ shape1 a = y /\ shape2 a = z.
Proof.
  unfold shape0, shape1, shape2. destruct (a_shape a) as [[p q] r]. cbn [fst snd]. split; [intro H; injection H; auto|intros (-> & -> & ->); reflexivity].
Qed.

(** ** set *)
Lemma set_loop n (l : list (array * nat)) :
  let check := foldM (fun (_ : unit) '(v, size) =>
            if negb (shape0 v =? 1) then Err ValueError else
            if negb (shape1 v =? n) then Err ValueError else
            if negb (shape2 v =? size) then Err ValueError else Ok tt) l tt in
  (check = Ok tt /\ Forall (fun '(v, size) => a_shape v = (1, n, size)) l) \/
  (check = Err ValueError /\ ~ Forall (fun '(v, size) => a_shape v = (1, n, size)) l).
Proof.
  cbv zeta. induction l as [|[v size] l IH]; cbn [foldM]; [left; auto|].
  destruct (Nat.eqb_spec (shape0 v) 1) as [E0|E0]; cbn [negb bind].
  2: { right. split; [reflexivity|]. intro F. inversion_clear F as [|? ? H _]. apply shape_eq in H. tauto. }
  destruct (Nat.eqb_spec (shape1 v) n) as [E1|E1]; cbn [negb bind].
  2: { right. split; [reflexivity|]. intro F. inversion_clear F as [|? ? H _]. apply shape_eq in H. tauto. }
  destruct (Nat.eqb_spec (shape2 v) size) as [E2|E2]; cbn [negb bind].
  2: { right. split; [reflexivity|]. intro F. inversion_clear F as [|? ? H _]. apply shape_eq in H. tauto. }
  destruct IH as [[-> F]|[-> F]]; [left|right]; (split; [reflexivity|]).
  - constructor; [apply shape_eq; auto|exact F].
  - intro G. inversion_clear G. contradiction.
Qed.
Lemma F2_combine (P : array -> nat -> Prop) l m : Forall2 P l m <-> length l = length m /\ Forall (fun '(v, z) => P v z) (combine l m).
Proof.
  split.
  - induction 1 as [|x y l m H _ [L F]]; cbn [length combine]; [auto|]. split; [lia|]. constructor; assumption.
  - intros [L F]. revert m L F. induction l as [|x l IH]; intros [|y m] L; try discriminate; cbn [combine]; [constructor|].
    intro F. inversion_clear F. constructor; [assumption|]. apply IH; [cbn in L; lia|assumption].
Qed.
Lemma set_cases (st : state) vs :
  (set st vs = Ok (mkState (r_sizes st) (r_sequences st) vs) /\ Forall2 (fun v size => a_shape v = (1, r_sequences st, size)) vs (r_sizes st)) \/
  (set st vs = Err ValueError /\ ~ Forall2 (fun v size => a_shape v = (1, r_sequences st, size)) vs (r_sizes st)).
Proof.
  unfold set. rewrite F2_combine. destruct (Nat.eqb_spec (length vs) (length (r_sizes st))) as [L|L]; cbn [negb]; [|right; tauto].
  destruct (set_loop (r_sequences st) (combine vs (r_sizes st))) as [[-> F]|[-> F]]; cbn [bind]; [left|right]; tauto.
Qed.
Lemma set_ok (st : state) vs : Forall2 (fun v size => a_shape v = (1, r_sequences st, size)) vs (r_sizes st) ->
  set st vs = Ok (mkState (r_sizes st) (r_sequences st) vs).
Proof. destruct (set_cases st vs) as [[H _]|[_ H]]; tauto. Qed.

Lemma zero_state_of sizes n : state_of sizes n (mkState sizes n (map (zero_array zero n) sizes)).
Proof.
  repeat split. cbn [r_variables]. induction sizes as [|z sizes IH]; cbn [map]; constructor; [|exact IH].
  repeat split. cbn [a_data zero_array]. constructor; [|constructor]. unfold shape1, shape2. cbn [a_shape zero_array fst snd]. rewrite repeat_length.
  split; [reflexivity|]. apply Forall_forall. intros v Hv. apply repeat_spec in Hv as ->. apply repeat_length.
Qed.

(** ** Concatenation *)
Definition one_step (n size : nat) (a : array) : Prop := a_shape a = (1, n, size) /\ consistent a.
Lemma one_step_data n size a : one_step n size a -> exists m, a_data a = [m] /\ vectors a = m /\ length m = n /\ Forall (fun v => length v = size) m.
Proof.
  intros [S [L F]]. apply shape_eq in S as (S0 & S1 & S2). rewrite S0 in L. destruct (a_data a) as [|m [|? ?]] eqn:E; try discriminate. exists m.
  inversion_clear F as [|? ? [F1 F2] _]. rewrite S1 in F1. rewrite S2 in F2. unfold vectors. rewrite E. cbn [concat]. rewrite app_nil_r. auto.
Qed.
Lemma one_step_make n size m : length m = n -> Forall (fun v => length v = size) m -> one_step n size (mkArray (1, n, size) [m]).
Proof. intros L F. split; [reflexivity|]. split; [reflexivity|]. cbn. constructor; [auto|constructor]. Qed.
Lemma one_step_ext n size a b : one_step n size a -> one_step n size b -> vectors a = vectors b -> a = b.
Proof.
  intros A B E. destruct (one_step_data _ _ _ A) as (m & D & V & _). destruct (one_step_data _ _ _ B) as (m' & D' & V' & _).
  destruct A as [A _], B as [B _]. destruct a as [sa da], b as [sb db]. cbn [a_shape a_data] in *. congruence.
Qed.
Lemma concat_loop size l : forall acc n, one_step n size acc -> Forall (fun a => exists k, one_step k size a) l ->
  exists v, foldM (fun acc b =>
      if (shape0 acc =? shape0 b) && (shape2 acc =? shape2 b)
      then Ok (mkArray (shape0 acc, shape1 acc + shape1 b, shape2 acc) (zip_app (a_data acc) (a_data b)))
      else Err ValueError) l acc = Ok v /\
  one_step (n + fold_right (fun a k => shape1 a + k) 0 l) size v /\ vectors v = vectors acc ++ concat (map vectors l).
Proof.
  induction l as [|b l IH]; intros acc n A F; cbn [foldM fold_right map concat].
  - exists acc. rewrite Nat.add_0_r, app_nil_r. auto.
  - inversion_clear F as [|? ? [k B] F']. destruct (one_step_data _ _ _ A) as (m & D & V & Lm & Fm). destruct (one_step_data _ _ _ B) as (m' & D' & V' & Lm' & Fm').
    destruct A as [SA _], B as [SB _]. apply shape_eq in SA as (A0 & A1 & A2). apply shape_eq in SB as (B0 & B1 & B2).
    rewrite A0, A1, A2, B0, B1, B2, !Nat.eqb_refl. cbn [andb]. rewrite D, D'. cbn [zip_app bind].
    destruct (IH (mkArray (1, n + k, size) [m ++ m']) (n + k)) as (v & E & O & VV).
    { apply one_step_make; [rewrite app_length; lia|]. apply Forall_app; auto. }
    { exact F'. }
    exists v. rewrite E. split; [reflexivity|]. rewrite <- Nat.add_assoc in O. split; [exact O|]. rewrite VV.
    unfold vectors at 1. cbn [a_data concat]. rewrite app_nil_r, V, V', app_assoc. reflexivity.
Qed.
Lemma concatenate_ok size l : l <> [] -> Forall (fun a => exists k, one_step k size a) l ->
  exists v, concatenate l = Ok v /\ one_step (fold_right (fun a k => shape1 a + k) 0 l) size v /\ vectors v = concat (map vectors l).
Proof.
  destruct l as [|a l]; [congruence|]. intros _ F. inversion_clear F as [|? ? [k A] F'].
  destruct (concat_loop size l a k A F') as (v & E & O & V). exists v. split; [exact E|]. destruct A as [SA _]. apply shape_eq in SA as (_ & A1 & _).
  cbn [fold_right map concat]. rewrite A1. auto.
Qed.

(** ** Combining *)
Lemma sum_left (l : list state) n : fold_left (fun n st => n + r_sequences st) l n = n + fold_right (fun st k => r_sequences st + k) 0 l.
Proof. revert n; induction l as [|x l IH]; intro n; cbn [fold_left fold_right]; [lia|]. rewrite IH. lia. Qed.
Lemma nth_error_split_at X0 (l : list X0) k x : nth_error l k = Some x -> firstn (S k) l = firstn k l ++ [x].
Proof. revert k; induction l as [|y l IH]; intros [|k] H; try discriminate; cbn [firstn app nth_error] in *; [congruence|]. f_equal. auto. Qed.
Lemma F2_firstn X0 Y0 (P : X0 -> Y0 -> Prop) l m k x y : Forall2 P (firstn k m) l -> nth_error m k = Some x -> P x y -> Forall2 P (firstn (S k) m) (l ++ [y]).
Proof. intros F H Hp. rewrite (nth_error_split_at _ _ _ _ H). apply Forall2_app; [exact F|]. constructor; [exact Hp|constructor]. Qed.

Definition each_of sizes (st : state) : Prop := exists n, state_of sizes n st.
Lemma each_variable sizes st k size : each_of sizes st -> nth_error sizes k = Some size ->
  exists v, nth_error (r_variables st) k = Some v /\ one_step (r_sequences st) size v.
Proof.
  intros (n & _ & N & F) H. rewrite N. revert k H. induction F as [|v z vs zs Hv _ IH]; intros [|k] H; try discriminate; cbn [nth_error] in *.
  - injection H as <-. exists v. auto.
  - auto.
Qed.
Lemma get_variables sizes (states : list state) k size : Forall (each_of sizes) states -> nth_error sizes k = Some size ->
  exists vs, mapM (fun st => get st k) states = Ok vs /\ Forall (fun a => exists n, one_step n size a) vs /\ length vs = length states /\
  fold_right (fun a n => shape1 a + n) 0 vs = fold_right (fun st n => r_sequences st + n) 0 states /\
  map vectors vs = map (fun st => nth k (state_vectors st) []) states.
Proof.
  intros F H. induction F as [|st states E _ (vs & M & FV & L & S & V)]; cbn [mapM fold_right map length].
  - exists []. repeat split; constructor.
  - destruct (each_variable _ _ _ _ E H) as (v & Hv & O). unfold get at 1, py_index. rewrite Hv. cbn [bind]. rewrite M. cbn [bind].
    exists (v :: vs). split; [reflexivity|]. split; [constructor; [eauto|exact FV]|]. cbn [length fold_right map]. split; [lia|].
    destruct O as [SO _]. apply shape_eq in SO as (_ & S1 & _). split; [lia|]. f_equal; [|exact V].
    unfold state_vectors. symmetry. apply nth_error_nth. rewrite nth_error_map, Hv. reflexivity.
Qed.

Theorem combine_ok sizes (states : list state) : states <> [] -> Forall (each_of sizes) states ->
  exists st, combine_sequences zero states = Ok st /\
  state_of sizes (fold_right (fun st n => r_sequences st + n) 0 states) st /\
  forall k, k < length sizes -> nth k (state_vectors st) [] = concat (map (fun s => nth k (state_vectors s) []) states).
Proof.
  intros NE F. destruct states as [|first states0] eqn:ES; [congruence|]. rewrite <- ES in *. clear NE.
  assert (FS : r_sizes first = sizes). { rewrite ES in F. inversion_clear F as [|? ? (n & H & _) _]. exact H. }
  set (N := fold_right (fun st n => r_sequences st + n) 0 states).
  assert (TL : fold_left (fun n st => n + r_sequences st) states 0 = N) by apply sum_left.
  assert (L : forall m k sz vs, k + m = length sizes ->
    Forall2 (fun size v => one_step N size v) (firstn k sizes) vs -> sz = firstn k sizes ->
    (forall i, i < k -> nth i (map vectors vs) [] = concat (map (fun s => nth i (state_vectors s) []) states)) ->
    exists vs', foldM (fun '(sizes, variables) index =>
        do vs <- mapM (fun st => get st index) states;
        do v <- concatenate vs;
        do size <- py_index (r_sizes first) index;
        if negb (shape0 v =? 1) then Err AssertionError else
        if negb (shape1 v =? fold_left (fun n st => n + r_sequences st) states 0) then Err AssertionError else
        if negb (shape2 v =? size) then Err AssertionError else
        Ok (sizes ++ [shape2 v], variables ++ [v])) (seq k m) (sz, vs) = Ok (sizes, vs') /\
    Forall2 (fun size v => one_step N size v) sizes vs' /\
    forall i, i < length sizes -> nth i (map vectors vs') [] = concat (map (fun s => nth i (state_vectors s) []) states)).
  { induction m as [|m IH]; intros k sz vs Hk FV Hsz V; cbn [seq foldM].
    - rewrite Nat.add_0_r in Hk. subst k. rewrite firstn_all in *. exists vs. subst sz. auto.
    - destruct (nth_error sizes k) as [size|] eqn:Ek; [|apply nth_error_None in Ek; lia].
      destruct (get_variables _ _ _ _ F Ek) as (ws & M & FW & LW & SW & VW). rewrite M. cbn [bind].
      destruct (concatenate_ok size ws) as (v & C & O & CV); [intros ->; cbn [length] in LW; rewrite ES in LW; discriminate|exact FW|].
      rewrite C. cbn [bind]. assert (PI : py_index (r_sizes first) k = Ok size) by (unfold py_index; rewrite FS, Ek; reflexivity). rewrite PI. cbn [bind]. rewrite SW in O. fold N in O.
      pose proof O as [SO _]. apply shape_eq in SO as (S0 & S1 & S2). rewrite S0, S1, S2, (proj2 (Nat.eqb_eq N _) (eq_sym TL)), !Nat.eqb_refl. cbn [negb bind].
      apply (IH (S k) (sz ++ [size]) (vs ++ [v])); [lia|now apply (F2_firstn _ _ _ _ _ _ size)|subst sz; symmetry; now apply nth_error_split_at|].
      assert (Lv : length vs = k) by (apply F2_length in FV; rewrite firstn_length in FV; lia).
      intros i Hi. rewrite map_app. cbn [map]. destruct (Nat.eq_dec i k) as [->|D].
      + rewrite app_nth2 by (rewrite map_length; lia). rewrite map_length, Lv, Nat.sub_diag. cbn [nth]. rewrite CV, VW. reflexivity.
      + rewrite app_nth1 by (rewrite map_length; lia). apply V. lia. }
  destruct (L (length sizes) 0 [] [] eq_refl ltac:(constructor) eq_refl ltac:(intros; lia)) as (vs & E & FV & V).
  exists (mkState sizes N vs). unfold combine_sequences. rewrite ES at 1. rewrite FS at 1. rewrite E. cbn [bind construct]. rewrite TL.
  assert (FV' : Forall2 (fun v size => one_step N size v) vs sizes) by (clear - FV; induction FV; constructor; auto).
  rewrite set_ok.
  - split; [reflexivity|]. split; [repeat split; exact FV'|exact V].
  - cbn [r_sequences r_sizes]. clear - FV'. induction FV' as [|v z l m [H _] _ IH]; constructor; auto.
Qed.

(** ** Extracting *)
Lemma slice_one n size a i : one_step n size a -> i < n ->
  one_step 1 size (slice_sequence i a) /\ vectors (slice_sequence i a) = [nth i (vectors a) []].
Proof.
  intros O Hi. destruct (one_step_data _ _ _ O) as (m & D & V & L & F). destruct O as [S _]. apply shape_eq in S as (S0 & S1 & S2).
  unfold slice_sequence. rewrite D, S0, S1, S2. cbn [map]. replace (Nat.min (i + 1) n - Nat.min i n) with 1 by lia.
  assert (E : firstn 1 (skipn i m) = [nth i m []]).
  { clear - L Hi. subst n. revert m Hi. induction i as [|i IH]; intros [|x m] Hi; cbn [length] in Hi; try lia; cbn [skipn firstn nth]; [reflexivity|]. apply IH. lia. }
  rewrite E. split.
  - apply one_step_make; [reflexivity|]. constructor; [|constructor]. rewrite Forall_forall in F. apply F, nth_In. lia.
  - unfold vectors. rewrite D. cbn [a_data concat app]. rewrite app_nil_r. reflexivity.
Qed.
Theorem token_state_ok sizes n (st : state) i : state_of sizes n st -> i < n ->
  exists st', token_state zero sizes (get_all st) i = Ok st' /\ state_of sizes 1 st' /\
  state_vectors st' = map (fun vectors => [nth i vectors []]) (state_vectors st).
Proof.
  intros (Z & _ & F) Hi. unfold token_state, get_all. cbn [construct bind].
  assert (G : Forall2 (fun v size => one_step 1 size v) (map (slice_sequence i) (r_variables st)) sizes /\
    map vectors (map (slice_sequence i) (r_variables st)) = map (fun vectors => [nth i vectors []]) (state_vectors st)).
  { unfold state_vectors. clear Z. induction F as [|v z vs zs O _ [IH1 IH2]]; cbn [map]; [repeat constructor|].
    destruct (slice_one _ _ _ i O Hi) as [O1 V1]. split; [constructor; assumption|]. rewrite V1, IH2. reflexivity. }
  destruct G as [G1 G2]. rewrite set_ok.
  - eexists. split; [reflexivity|]. split; [repeat split; exact G1|exact G2].
  - cbn [r_sequences r_sizes]. clear - G1. induction G1 as [|v z l m [H _] _ IH]; constructor; auto.
Qed.
Lemma state_ext sizes n (a b : state) : state_of sizes n a -> state_of sizes n b -> state_vectors a = state_vectors b -> a = b.
Proof.
  intros (Za & Na & Fa) (Zb & Nb & Fb) V. destruct a as [za na va], b as [zb nb vb]. cbn [r_sizes r_sequences r_variables] in *. unfold state_vectors in V.
  cbn [r_variables] in V. f_equal; try congruence. subst. revert vb Fb V. induction Fa as [|v z vs zs O _ IH]; intros vb Fb V.
  - inversion Fb. reflexivity.
  - inversion Fb as [|w z' ws zs' O' Fw]; subst. cbn [map] in V. injection V as V1 V2. f_equal; [|auto]. eapply one_step_ext; eauto.
Qed.
Theorem combine_extract sizes (states : list state) i st : Forall (state_of sizes 1) states -> nth_error states i = Some st ->
  exists whole, combine_sequences zero states = Ok whole /\ token_state zero sizes (get_all whole) i = Ok st.
Proof.
  intros F H. assert (NE : states <> []) by (intros ->; destruct i; discriminate).
  destruct (combine_ok sizes states NE) as (whole & E & W & V); [eapply Forall_impl; [|exact F]; intros s Hs; exists 1; exact Hs|].
  exists whole. split; [exact E|].
  assert (N : fold_right (fun st n => r_sequences st + n) 0 states = length states).
  { clear - F. induction F as [|s l (_ & H & _) _ IH]; cbn [fold_right length]; [reflexivity|]. rewrite H, IH. reflexivity. }
  rewrite N in W. assert (Hi : i < length states) by (apply nth_error_Some; congruence).
  destruct (token_state_ok sizes (length states) whole i W Hi) as (st' & -> & S & SV). f_equal.
  assert (S1 : state_of sizes 1 st) by (rewrite Forall_forall in F; apply F; eapply nth_error_In; eauto).
  apply (state_ext sizes 1); try assumption. rewrite SV.
  assert (LW : length (state_vectors whole) = length sizes) by (unfold state_vectors; rewrite map_length; destruct W as (_ & _ & W); now apply F2_length in W).
  assert (LS : length (state_vectors st) = length sizes) by (unfold state_vectors; rewrite map_length; destruct S1 as (_ & _ & S1); now apply F2_length in S1).
  apply nth_ext with (d := []) (d' := []); [rewrite map_length; lia|]. intros k Hk. rewrite map_length, LW in Hk.
  rewrite (nth_indep _ [] [nth i [] []]) by (rewrite map_length; lia).
  refine (eq_trans (map_nth (fun v => [nth i v []]) (state_vectors whole) [] k) _). cbv beta. rewrite V by exact Hk.
  assert (One : forall s, In s states -> exists x, nth k (state_vectors s) [] = [x]).
  { intros s Hs. rewrite Forall_forall in F. destruct (nth_error sizes k) as [size|] eqn:Ek; [|apply nth_error_None in Ek; lia].
    destruct (each_variable sizes s k size) as (v & Hv & O); [exists 1; now apply F|exact Ek|].
    destruct (F s Hs) as (_ & N1 & _). rewrite N1 in O. destruct (one_step_data _ _ _ O) as (m & _ & Vm & Lm & _).
    destruct m as [|x [|? ?]]; try discriminate. exists x. unfold state_vectors. rewrite <- Vm. apply nth_error_nth. rewrite nth_error_map, Hv. reflexivity. }
  clear - One H. revert i H. induction states as [|s states IH]; intros [|i] H; try discriminate; cbn [map concat nth_error] in *.
  - injection H as <-. destruct (One s (or_introl eq_refl)) as [x ->]. reflexivity.
  - destruct (One s (or_introl eq_refl)) as [x ->]. cbn [app nth]. apply IH; [|exact H]. intros; apply One; now right.
Qed.
End Proofs.
