(** Every network that has the layers of a network built from a description, and other
    values of the parameters, is a network built from the description with some initial
    values. *)
From Coq Require Import ZArith Lia.
From Verif Require Import Base BaseLib ListLib Strings NumStr Dict VocabModel ArchModel ArchSpec ParamModel ParamSpec NetModel DeviceModel DeviceSpec DeviceProofs OutputModel BuildModel
  BuildProofs SavedModel SavedSpec SavedArrays SavedBuild SavedNetwork AcceptParams.
Local Open Scope nat_scope.
Local Open Scope list_scope.

(** ** Lists with indices *)
Fixpoint mapi {X Y} (g : nat -> X -> Y) (k : nat) (l : list X) : list Y :=
  match l with [] => [] | x :: r => g k x :: mapi g (S k) r end.
Lemma mapi_seq X Y (g : nat -> X -> Y) h n : forall k, mapi g k (map h (seq k n)) = map (fun j => g j (h j)) (seq k n).
Proof. induction n as [|n IH]; intro k; cbn [seq map mapi]; [reflexivity|]. now rewrite IH. Qed.
Lemma mapi_eq X Y (R : X -> Y -> Prop) (g : nat -> X -> Y) l u : Forall2 R l u -> forall k,
  (forall j x y, R x y -> nth_error u j = Some y -> g (k + j) x = y) -> mapi g k l = u.
Proof.
  induction 1 as [|x y l u HR F IH]; intros k H; cbn [mapi]; [reflexivity|]. f_equal.
  - rewrite <- (Nat.add_0_r k). now apply H.
  - apply IH. intros j a b Hab E. rewrite Nat.add_succ_comm. now apply H.
Qed.
Lemma mapi_ext X Y (g h : nat -> X -> Y) l : (forall k x, g k x = h k x) -> forall k, mapi g k l = mapi h k l.
Proof. intro H. induction l as [|x l IH]; intro k; cbn [mapi]; [reflexivity|]. now rewrite H, IH. Qed.

(** ** Joining the parts *)
Lemma F2_firstn X Y (R : X -> Y -> Prop) k l u : Forall2 R l u -> Forall2 R (firstn k l) (firstn k u).
Proof. intro H. revert k. induction H; intros [|k]; cbn [firstn]; auto. Qed.
Lemma F2_skipn X Y (R : X -> Y -> Prop) k l u : Forall2 R l u -> Forall2 R (skipn k l) (skipn k u).
Proof. intro H. revert k. induction H; intros [|k]; cbn [skipn]; auto. Qed.
Lemma join_from X Y (R : X -> Y -> Prop) (l : list X) ranges : forall parts first, first <= length l -> consecutive first (length l) ranges ->
  Forall2 (fun r q => Forall2 R (slice_range r l) q) ranges parts ->
  Forall2 R (skipn first l) (concat parts) /\
  forall prefix, length prefix = first -> Forall2 (fun r q => slice_range r (prefix ++ concat parts) = q) ranges parts.
Proof.
  induction ranges as [|[a b] ranges IH]; intros parts first Hf C F; inversion F as [|? q ? ps Hq F']; subst; cbn [consecutive concat] in *.
  - subst. rewrite skipn_all. split; [constructor|]. constructor.
  - destruct C as (-> & L & C). assert (Hb : b <= length l).
    { clear - C. revert b C. induction ranges as [|[x y] r IHr]; intros b; cbn [consecutive]; [lia|]. intros (-> & Hxy & C). apply IHr in C. lia. }
    destruct (IH ps b Hb C F') as [H1 H2]. unfold slice_range in Hq. cbn [fst snd] in Hq.
    assert (Lq : length q = b - first).
    { clear - Hq Hb. assert (E : length (firstn (b - first) (skipn first l)) = length q) by (induction Hq; cbn [length]; auto).
      rewrite firstn_length, skipn_length in E. lia. }
    split.
    + rewrite <- (firstn_skipn (b - first) (skipn first l)). apply Forall2_app; [exact Hq|]. rewrite skipn_skipn. replace (b - first + first) with b by lia. exact H1.
    + intros prefix Lp. constructor.
      * unfold slice_range. cbn [fst snd]. rewrite skipn_app, skipn_all2 by lia. replace (first - length prefix) with 0 by lia. cbn [skipn app].
        rewrite firstn_app, firstn_all2 by lia. replace (b - first - length q) with 0 by lia. cbn [firstn]. now rewrite app_nil_r.
      * specialize (H2 (prefix ++ q)). rewrite app_length, <- app_assoc in H2. apply H2. lia.
Qed.
Lemma join X Y (R : X -> Y -> Prop) (l : list X) ranges parts : consecutive 0 (length l) ranges ->
  Forall2 (fun r q => Forall2 R (slice_range r l) q) ranges parts ->
  exists u, Forall2 R l u /\ Forall2 (fun r q => slice_range r u = q) ranges parts.
Proof. intros C F. destruct (join_from _ _ R l ranges parts 0 (Nat.le_0_l _) C F) as [H1 H2]. exists (concat parts). split; [exact H1|]. now apply (H2 []). Qed.
Lemma join_rows X Y (R : X -> Y -> Prop) n ranges : consecutive 0 n ranges -> forall (w : list (list X)) parts, Forall (fun m => length m = n) w ->
  Forall2 (fun r q => Forall2 (Forall2 R) (map (slice_range r) w) q) ranges parts ->
  exists u, Forall2 (Forall2 R) w u /\ Forall2 (fun r q => map (slice_range r) u = q) ranges parts.
Proof.
  intros C. induction w as [|m w IH]; intros parts L F; cbn [map] in F.
  - exists []. split; [constructor|]. cbn [map]. clear - F. induction F as [|r q rs qs H F IH]; constructor; auto. inversion H. reflexivity.
  - inversion L as [|? ? Lm Lw]; subst.
    assert (G : exists hs ts, parts = map (fun x => fst x :: snd x) (combine hs ts) /\ length hs = length ts /\
      Forall2 (fun r q => Forall2 R (slice_range r m) q) ranges hs /\ Forall2 (fun r q => Forall2 (Forall2 R) (map (slice_range r) w) q) ranges ts).
    { clear - F. induction F as [|r q rs qs H F IH]; [exists [], []; repeat split; constructor|].
      destruct IH as (hs & ts & E1 & E2 & E3 & E4). inversion H as [|? h ? t Hh Ht]; subst. exists (h :: hs), (t :: ts). cbn [combine map fst snd length].
      repeat split; auto. }
    destruct G as (hs & ts & -> & E2 & E3 & E4). destruct (join _ _ _ _ _ _ C E3) as (u & U1 & U2). destruct (IH _ Lw E4) as (us & V1 & V2).
    exists (u :: us). split; [now constructor|]. cbn [map]. clear - U2 V2 E2. revert ts E2 V2. induction U2 as [|r h rs hs H F IH]; intros ts E2 V2; inversion V2 as [|? t ? ts' Ht F']; subst; cbn [combine map fst snd]; [constructor|].
    constructor; [reflexivity|]. apply IH; [now injection E2|assumption].
Qed.

Section Realise.
Context {A : arith}.
Notation num := (num A).
Notation params := (list (pystr * param A)).
Notation item := (pystr * pystr * bool * param A)%type.

Lemma F2_length X Y (R : X -> Y -> Prop) l u : Forall2 R l u -> length l = length u.
Proof. induction 1; cbn [length]; auto. Qed.
Lemma join_param (v : param A) ranges parts : regular_param v -> consecutive 0 (last_dimension v) ranges ->
  Forall2 (fun r q => same_dimensions (part r v) q) ranges parts ->
  exists u, same_dimensions v u /\ Forall2 (fun r q => part r u = q) ranges parts.
Proof.
  intros Rv C F.
  destruct v as [w|b|w|w|b]; cbn [regular_param last_dimension part] in *.
  - assert (G : exists qs, parts = map Weight qs /\ Forall2 (fun r q => same_rows (slice_range r w) q) ranges qs).
    { clear - F. induction F as [|r q rs qs H F (ls & -> & I)]; [exists []; split; constructor|]. destruct q as [w'| | | |]; try contradiction. exists (w' :: ls). split; [reflexivity|now constructor]. }
    destruct G as (qs & -> & G). destruct (join _ _ _ _ _ _ C G) as (u & U1 & U2). exists (Weight u). split; [exact U1|].
    clear - U2. induction U2; cbn [map part]; constructor; auto. now f_equal.
  - assert (G : exists qs, parts = map Bias qs /\ Forall2 (fun r q => Forall2 (fun _ _ => True) (slice_range r b) q) ranges qs).
    { clear - F. induction F as [|r q rs qs H F (ls & -> & I)]; [exists []; split; constructor|]. destruct q as [|b'| | |]; try contradiction. exists (b' :: ls). split; [reflexivity|]. constructor; [|exact I]. now apply length_F2. }
    destruct G as (qs & -> & G). destruct (join _ _ _ _ _ _ C G) as (u & U1 & U2). exists (Bias u). split; [now apply length_F2 in U1|].
    clear - U2. induction U2; cbn [map part]; constructor; auto. now f_equal.
  - assert (G : exists qs, parts = map Filters qs /\ Forall2 (fun r q => Forall2 (Forall2 (fun x y : list num => length x = length y)) (map (slice_range r) w) q) ranges qs).
    { clear - F. induction F as [|r q rs qs H F (ls & -> & I)]; [exists []; split; constructor|]. destruct q as [| |w'| |]; try contradiction. exists (w' :: ls). split; [reflexivity|]. constructor; [exact H|exact I]. }
    destruct G as (qs & -> & G). destruct (join_rows _ _ (fun x y : list num => length x = length y) _ _ C w qs) as (u & U1 & U2); [|exact G|].
    { destruct w as [|m w]; [constructor|]. revert Rv. apply Forall_impl. now intros m' [E _]. }
    exists (Filters u). split; [exact U1|]. clear - U2. induction U2; cbn [map part]; constructor; auto. now f_equal.
  - assert (G : exists qs, parts = map LevelWeight qs /\ Forall2 (fun r q => Forall2 (Forall2 (fun x y : list num => length x = length y)) (map (slice_range r) w) q) ranges qs).
    { clear - F. induction F as [|r q rs qs H F (ls & -> & I)]; [exists []; split; constructor|]. destruct q as [| | |w'|]; try contradiction. exists (w' :: ls). split; [reflexivity|]. constructor; [exact H|exact I]. }
    destruct G as (qs & -> & G). destruct (join_rows _ _ (fun x y : list num => length x = length y) _ _ C w qs) as (u & U1 & U2); [|exact G|].
    { destruct w as [|m w]; [constructor|]. revert Rv. apply Forall_impl. now intros m' [E _]. }
    exists (LevelWeight u). split; [exact U1|]. clear - U2. induction U2; cbn [map part]; constructor; auto. now f_equal.
  - assert (G : exists qs, parts = map LevelBias qs /\ Forall2 (fun r q => Forall2 (Forall2 (fun _ _ : num => True)) (map (slice_range r) b) q) ranges qs).
    { clear - F. induction F as [|r q rs qs H F (ls & -> & I)]; [exists []; split; constructor|]. destruct q as [| | | |b']; try contradiction. exists (b' :: ls). split; [reflexivity|]. constructor; [|exact I].
      cbn [same_dimensions] in H. unfold same_rows in H. clear - H. induction H; constructor; auto. now apply length_F2. }
    destruct G as (qs & -> & G). destruct (join_rows _ _ (fun _ _ : num => True) _ _ C b qs) as (u & U1 & U2); [|exact G|].
    { destruct b as [|m b]; [constructor|]. exact Rv. }
    exists (LevelBias u). split.
    + cbn [same_dimensions]. unfold same_rows. clear - U1. induction U1; constructor; auto. now apply length_F2 in H.
    + clear - U2. induction U2; cbn [map part]; constructor; auto. now f_equal.
Qed.

(** ** Items that give the parameters *)
Lemma other_none path (ps qs : params) : other_params ps qs -> dict_get path ps = None -> dict_get path qs = None.
Proof. intros O. now apply (other_get path ps qs O). Qed.
Lemma add_given path (v : param A) ps ps' qs : add_param path v ps = Ok ps' -> other_params ps qs ->
  exists added, ps' = ps ++ added /\ forall added', other_params added added' -> exists u, same_dimensions v u /\ added' = [(path, u)] /\ add_param path u qs = Ok (qs ++ added').
Proof.
  unfold add_param. destruct (dict_get path ps) eqn:E; [discriminate|]. intros [= <-] O. eexists. split; [reflexivity|].
  intros added' H. inversion H as [|? [y u] ? ? [Ey D] F]; subst. inversion F; subst. cbn [fst snd] in *. subst y. exists u. split; [exact D|]. split; [reflexivity|].
  now rewrite (other_none _ _ _ O E).
Qed.
Lemma parts_given path (v : param A) dr : forall ps ps' qs, foldM (part_step path v) dr ps = Ok ps' -> other_params ps qs ->
  exists added, ps' = ps ++ added /\ forall added', other_params added added' ->
    exists us, Forall2 (fun r q => same_dimensions (part r v) q) (map snd dr) us /\
      forall u, Forall2 (fun r q => part r u = q) (map snd dr) us -> foldM (part_step path u) dr qs = Ok (qs ++ added').
Proof.
  induction dr as [|[d r] dr IH]; intros ps ps' qs; cbn [foldM map snd].
  - intros [= <-] O. exists []. split; [now rewrite app_nil_r|]. intros added' H. inversion H; subst. exists []. split; [constructor|]. intros. now rewrite app_nil_r.
  - destruct (part_step path v ps (d, r)) as [ps1|] eqn:E; cbn [bind]; [|discriminate]. intros H O. destruct d as [d|]; [|discriminate]. cbn [part_step] in E.
    destruct (add_given _ _ _ _ _ E O) as (a1 & -> & G1).
    assert (X : exists a2, ps' = (ps ++ a1) ++ a2).
    { destruct (IH _ _ (ps ++ a1) H (F2_refl _ _ (fun x => conj eq_refl (dims_refl _)) _)) as (a2 & -> & _). eauto. }
    destruct X as (a2 & ->). exists (a1 ++ a2). split; [now rewrite app_assoc|]. intros added' HO. apply Forall2_app_inv_l in HO as (b1 & b2 & O1 & O2 & ->).
    destruct (G1 b1 O1) as (u1 & D1 & E1 & Q1). destruct (IH _ _ (qs ++ b1) H (Forall2_app O O1)) as (a3 & E3 & G2). apply app_inv_head in E3. subst a3.
    destruct (G2 b2 O2) as (us & Us & K). exists (u1 :: us). split; [now constructor|]. intros u Hu. inversion Hu as [|? ? ? ? Hu1 Hu2]; subst. cbn [part_step].
    rewrite Q1. cbn [bind]. rewrite (K u Hu2). f_equal. symmetry. apply app_assoc.
Qed.
Lemma item_given devices (ps : params) (i : item) ps' qs : init_param devices ps i = Ok ps' -> regular_param (snd i) -> other_params ps qs ->
  exists added, ps' = ps ++ added /\ forall added', other_params added added' -> exists j, same_item i j /\ init_param devices qs j = Ok (qs ++ added').
Proof.
  destruct i as [[[layer name] sp] v]. cbn [snd]. intros H Rv O.
  assert (D : sp = false \/ devices = [None] \/ sp = true /\ devices <> [None]).
  { destruct sp; [|auto]. destruct devices as [|[d|] [|? ?]]; try (right; right; split; [reflexivity|discriminate]). auto. }
  assert (One : (forall (u : param A) (qs : params), init_param devices qs (layer, name, sp, u) = add_param (param_path layer name None) u qs) ->
    exists added, ps' = ps ++ added /\ forall added', other_params added added' -> exists j, same_item (layer, name, sp, v) j /\ init_param devices qs j = Ok (qs ++ added')).
  { intro E. rewrite E in H. destruct (add_given _ _ _ _ _ H O) as (added & -> & G). exists added. split; [reflexivity|]. intros added' Oa.
    destruct (G added' Oa) as (u & Du & _ & Eu). exists (layer, name, sp, u). split; [split; [reflexivity|exact Du]|]. now rewrite E. }
  destruct D as [->|[->|[-> D]]]; [now apply One|apply One; now destruct sp|]. clear One. rewrite init_unfold in H by exact D.
  destruct (split_per_device _ _) as [ranges|] eqn:S; cbn [bind] in H; [|discriminate]. pose proof (split_inv _ _ _ S) as (_ & LR & C & _).
  destruct (parts_given _ _ _ _ _ _ H O) as (added & -> & G). exists added. split; [reflexivity|]. intros added' Oa. destruct (G added' Oa) as (us & Us & K).
  assert (MS : map snd (combine devices ranges) = ranges).
  { clear - LR. revert ranges LR. induction devices as [|d ds IH]; intros [|r rs] L; cbn [combine map snd length] in *; try discriminate; [reflexivity|]. f_equal. apply IH. lia. }
  rewrite MS in Us, K. destruct (join_param v ranges us Rv C Us) as (u & Du & Pu). exists (layer, name, true, u). split; [split; [reflexivity|exact Du]|].
  rewrite init_unfold by exact D. rewrite <- (last_dims _ _ Du), S. cbn [bind]. now apply K.
Qed.
Lemma items_given devices (is : list item) : forall ps ps' qs, foldM (init_param devices) is ps = Ok ps' -> Forall (fun i => regular_param (snd i)) is -> other_params ps qs ->
  exists added, ps' = ps ++ added /\ forall added', other_params added added' ->
    exists js, Forall2 same_item is js /\ foldM (init_param devices) js qs = Ok (qs ++ added').
Proof.
  induction is as [|i is IH]; intros ps ps' qs; cbn [foldM].
  - intros [= <-] _ O. exists []. split; [now rewrite app_nil_r|]. intros added' H. inversion H; subst. exists []. split; [constructor|]. cbn [foldM]. now rewrite app_nil_r.
  - destruct (init_param devices ps i) as [ps1|] eqn:E; cbn [bind]; [|discriminate]. intros H F O. inversion F as [|? ? Ri F']; subst.
    destruct (item_given _ _ _ _ _ E Ri O) as (a1 & -> & G1).
    assert (X : exists a2, ps' = (ps ++ a1) ++ a2).
    { destruct (IH _ _ (ps ++ a1) H F' (F2_refl _ _ (fun x => conj eq_refl (dims_refl _)) _)) as (a2 & -> & _). eauto. }
    destruct X as (a2 & ->). exists (a1 ++ a2). split; [now rewrite app_assoc|]. intros added' HO. apply Forall2_app_inv_l in HO as (b1 & b2 & O1 & O2 & ->).
    destruct (G1 b1 O1) as (j & Sj & Ej). destruct (IH _ _ (qs ++ b1) H F' (Forall2_app O O1)) as (a3 & E3 & G2). apply app_inv_head in E3. subst a3.
    destruct (G2 b2 O2) as (js & Sjs & Ejs). exists (j :: js). split; [now constructor|]. cbn [foldM]. rewrite Ej. cbn [bind]. now rewrite app_assoc.
Qed.
Lemma items_exist devices (is : list item) ps qs : foldM (init_param devices) is [] = Ok ps -> Forall (fun i => regular_param (snd i)) is -> other_params ps qs ->
  exists js, Forall2 same_item is js /\ foldM (init_param devices) js [] = Ok qs.
Proof. intros H F O. destruct (items_given _ _ _ _ [] H F (Forall2_nil _)) as (added & -> & G). destruct (G qs O) as (js & S & E). exists js. auto. Qed.

(** ** Initial values that give the items *)
Definition fill (f : nat -> nat -> nat -> num) (v : param A) : param A :=
  match v with
  | Weight w => Weight (mapi (fun c col => mapi (fun r _ => f 0 r c) 0 col) 0 w)
  | Bias b => Bias (mapi (fun c _ => f 0 0 c) 0 b)
  | Filters w => Filters (mapi (fun i m => mapi (fun c col => mapi (fun r _ => f i r c) 0 col) 0 m) 0 w)
  | LevelWeight w => LevelWeight (mapi (fun i m => mapi (fun c col => mapi (fun r _ => f i r c) 0 col) 0 m) 0 w)
  | LevelBias b => LevelBias (mapi (fun i row => mapi (fun c _ => f 0 i c) 0 row) 0 b)
  end.
Definition element (v : param A) (i r c : nat) : num :=
  match v with
  | Weight w => nth r (nth c w []) zero
  | Bias b => nth c b zero
  | Filters w | LevelWeight w => nth r (nth c (nth i w []) []) zero
  | LevelBias b => nth c (nth r b []) zero
  end.
Lemma fill_vector (l u : list num) g : length l = length u -> (forall k x, nth_error u k = Some x -> g k = x) -> mapi (fun k _ => g k) 0 l = u.
Proof. intros L H. apply length_F2 in L. apply (mapi_eq _ _ _ _ _ _ L). intros j x y _ E. now apply H. Qed.
Lemma fill_matrix (w u : list (list num)) g : same_rows w u -> (forall c col r x, nth_error u c = Some col -> nth_error col r = Some x -> g r c = x) ->
  mapi (fun c col => mapi (fun r _ => g r c) 0 col) 0 w = u.
Proof. intros L H. apply (mapi_eq _ _ _ _ _ _ L). intros j x y Lxy E. cbn [Nat.add]. apply (fill_vector x y (fun r => g r j)); [exact Lxy|]. intros k z Ez. eauto. Qed.
Lemma fill_element (v u : param A) : same_dimensions v u -> fill (element u) v = u.
Proof.
  destruct v as [w|b|w|w|b], u as [w0|b0|w0|w0|b0]; cbn [same_dimensions fill element]; try contradiction; intro D; f_equal.
  - apply (fill_matrix _ _ (fun r c => nth r (nth c w0 []) zero)); [exact D|]. intros c col r x E1 E2. now rewrite (nth_error_nth _ _ _ E1), (nth_error_nth _ _ _ E2).
  - apply (fill_vector _ _ (fun c => nth c b0 zero)); [exact D|]. intros k x E. now rewrite (nth_error_nth _ _ _ E).
  - apply (mapi_eq _ _ _ _ _ _ D). intros j x y Dxy E. cbn [Nat.add]. apply (fill_matrix _ _ (fun r c => nth r (nth c (nth j w0 []) []) zero)); [exact Dxy|].
    intros c col r z E1 E2. now rewrite (nth_error_nth _ _ _ E), (nth_error_nth _ _ _ E1), (nth_error_nth _ _ _ E2).
  - apply (mapi_eq _ _ _ _ _ _ D). intros j x y Dxy E. cbn [Nat.add]. apply (fill_matrix _ _ (fun r c => nth r (nth c (nth j w0 []) []) zero)); [exact Dxy|].
    intros c col r z E1 E2. now rewrite (nth_error_nth _ _ _ E), (nth_error_nth _ _ _ E1), (nth_error_nth _ _ _ E2).
  - apply (mapi_eq _ _ _ _ _ _ D). intros j x y Dxy E. cbn [Nat.add]. apply (fill_vector _ _ (fun c => nth c (nth j b0 []) zero)); [exact Dxy|].
    intros k z E1. now rewrite (nth_error_nth _ _ _ E), (nth_error_nth _ _ _ E1).
Qed.

Section Values.
Variables initial initial' : pystr -> pystr -> nat -> nat -> nat -> num.
Definition refill (i : item) : item := let '(layer, name, sp, v) := i in (layer, name, sp, fill (initial' layer name) v).
Lemma matrix_refill layer name k r c : mapi (fun c col => mapi (fun r (_ : num) => initial' layer name k r c) 0 col) 0 (new_matrix initial layer name k r c) = new_matrix initial' layer name k r c.
Proof. unfold new_matrix. rewrite mapi_seq. apply map_ext. intro x. apply mapi_seq. Qed.
Lemma weight_refill layer name r c : Weight (new_matrix initial' layer name 0 r c) = fill (initial' layer name) (Weight (new_matrix initial layer name 0 r c)).
Proof. cbn [fill]. now rewrite matrix_refill. Qed.
Lemma bias_refill layer name n : Bias (new_bias initial' layer name n) = fill (initial' layer name) (Bias (new_bias initial layer name n)).
Proof. cbn [fill]. f_equal. unfold new_bias. symmetry. apply mapi_seq. Qed.
Lemma matrices_refill layer name k r c :
  mapi (fun i m => mapi (fun c col => mapi (fun r (_ : num) => initial' layer name i r c) 0 col) 0 m) 0 (new_matrices initial layer name k r c) = new_matrices initial' layer name k r c.
Proof. unfold new_matrices. rewrite mapi_seq. apply map_ext. intro x. apply matrix_refill. Qed.
Lemma filters_refill layer name k r c : Filters (new_matrices initial' layer name k r c) = fill (initial' layer name) (Filters (new_matrices initial layer name k r c)).
Proof. cbn [fill]. now rewrite matrices_refill. Qed.
Lemma level_weight_refill layer name k r c : LevelWeight (new_matrices initial' layer name k r c) = fill (initial' layer name) (LevelWeight (new_matrices initial layer name k r c)).
Proof. cbn [fill]. now rewrite matrices_refill. Qed.
Lemma level_bias_refill layer name l1 l2 : LevelBias (map (fun i => map (initial' layer name 0 i) (seq 0 l2)) (seq 0 l1)) =
  fill (initial' layer name) (LevelBias (map (fun i => map (initial layer name 0 i) (seq 0 l2)) (seq 0 l1))).
Proof. cbn [fill]. f_equal. symmetry. rewrite mapi_seq. apply map_ext. intro x. apply mapi_seq. Qed.
Lemma values_refill k name sizes sizes' size :
  initial_params k name sizes' size (new_values initial' k name sizes size) = map refill (initial_params k name sizes' size (new_values initial k name sizes size)).
Proof.
  destruct k; cbn [new_values initial_params recurrent_matrices recurrent_params app map refill];
    rewrite <- ?weight_refill, <- ?bias_refill, <- ?filters_refill; try reflexivity.
  induction (combine (seq 0 (length sizes')) sizes') as [|[i s] l IH]; cbn [flat_map map]; [reflexivity|]. rewrite map_app. f_equal; [|exact IH].
  destruct (s =? size); cbn [map refill]; [reflexivity|]. now rewrite <- weight_refill.
Qed.

Variable parse_int : pystr -> result Z.
Variable dropout_scale : option ArchModel.value -> result num.
Variable default : option pystr.
Record desc_fill (d d' : description A) : Prop := {
  df_kind : d_kind d' = d_kind d; df_name : d_name d' = d_name d; df_inputs : d_inputs d' = d_inputs d; df_size : d_size d' = d_size d;
  df_activation : d_activation d' = d_activation d; df_devices : d_devices d' = d_devices d; df_scale : d_scale d' = d_scale d;
  df_values : forall sizes, initial_params (d_kind d') (d_name d') sizes (d_size d') (d_values d') =
                            map refill (initial_params (d_kind d) (d_name d) sizes (d_size d) (d_values d)) }.
Record out_fill (o o' : output_description A) : Prop := {
  of_kind : o_kind o' = o_kind o; of_name : o_name o' = o_name o; of_inputs : o_inputs o' = o_inputs o; of_size : o_size o' = o_size o;
  of_devices : o_devices o' = o_devices o; of_unk_class : o_unk_class o' = o_unk_class o; of_exclude_unk : o_exclude_unk o' = o_exclude_unk o;
  of_values : output_params (o_kind o') (o_name o') (o_values o') = map refill (output_params (o_kind o) (o_name o) (o_values o)) }.
Lemma fill_names e e' : Forall2 desc_fill e e' -> map d_name e' = map d_name e.
Proof. induction 1 as [|d d' e e' [] F IH]; cbn [map]; congruence. Qed.
Lemma fill_sizes e e' : Forall2 desc_fill e e' -> map d_size e' = map d_size e.
Proof. induction 1 as [|d d' e e' [] F IH]; cbn [map]; congruence. Qed.
Lemma input_fill v o : sim desc_fill (input_layer v o) (input_layer v o).
Proof.
  unfold input_layer. destruct (text o (str "type")) as [type|]; cbn [bind sim]; [|reflexivity].
  match goal with |- context [bind ?z _] => destruct z as [[k size]|] eqn:Ek; cbn [bind sim]; [|reflexivity] end.
  destruct (text o (str "name")) as [name|]; cbn [bind sim]; [|reflexivity]. destruct (activation_of o) as [act|]; cbn [bind sim]; [|reflexivity].
  constructor; try reflexivity. cbn [d_kind d_name d_size d_values]. intro sizes. destruct k; reflexivity.
Qed.
Lemma hidden_fill e e' o : Forall2 desc_fill e e' ->
  sim desc_fill (hidden_layer parse_int dropout_scale initial default e o) (hidden_layer parse_int dropout_scale initial' default e' o).
Proof.
  intros F. unfold hidden_layer. rewrite (fill_names _ _ F), (fill_sizes _ _ F).
  destruct (input_positions _ o) as [inputs|]; cbn [bind sim]; [|reflexivity]. destruct (device_names default o) as [devices|]; cbn [bind sim]; [|reflexivity].
  destruct (text o (str "name")) as [name|]; cbn [bind sim]; [|reflexivity]. destruct (text o (str "type")) as [type|]; cbn [bind sim]; [|reflexivity].
  destruct (kind_of parse_int o type) as [k|]; cbn [bind sim]; [|reflexivity].
  destruct (mapM _ inputs) as [sizes|]; cbn [bind sim]; [|reflexivity].
  destruct (layer_size parse_int k o sizes) as [size|]; cbn [bind sim]; [|reflexivity]. destruct (activation_of o) as [act|]; cbn [bind sim]; [|reflexivity].
  destruct (check_inputs k sizes size); cbn [bind sim]; [|reflexivity].
  match goal with |- context [bind ?z _] => destruct z as [scale|]; cbn [bind sim]; [|reflexivity] end.
  constructor; try reflexivity. cbn [d_kind d_name d_size d_values]. intro sizes'. apply values_refill.
Qed.
Lemma output_fill exclude v e e' o : Forall2 desc_fill e e' ->
  sim out_fill (output_layer parse_int initial default exclude v e o) (output_layer parse_int initial' default exclude v e' o).
Proof.
  intros F. unfold output_layer. rewrite (fill_names _ _ F), (fill_sizes _ _ F).
  destruct (input_positions _ o) as [inputs|]; cbn [bind sim]; [|reflexivity]. destruct (device_names default o) as [devices|]; cbn [bind sim]; [|reflexivity].
  destruct (text o (str "name")) as [name|]; cbn [bind sim]; [|reflexivity]. destruct (text o (str "type")) as [type|]; cbn [bind sim]; [|reflexivity].
  destruct (mapM _ inputs) as [sizes|]; cbn [bind sim]; [|reflexivity]. destruct (activation_of o) as [act|]; cbn [bind sim]; [|reflexivity].
  destruct (pystr_eqb type (str "softmax")); [|destruct (pystr_eqb type (str "hsoftmax"))].
  - destruct (word_to_id v UNK) as [i|]; cbn [bind sim]; [|reflexivity]. destruct (py_index (v_w2c v) i) as [c|]; cbn [bind sim]; [|reflexivity].
    constructor; try reflexivity. cbn [o_kind o_name o_values output_params map refill]. now rewrite <- weight_refill, <- bias_refill.
  - destruct (level_sizes (num_classes v)) as [[l1 l2]|]; cbn [bind sim]; [|reflexivity].
    constructor; try reflexivity. cbn [o_kind o_name o_values output_params map refill]. now rewrite <- weight_refill, <- bias_refill, <- level_weight_refill, <- level_bias_refill.
  - destruct (kind_of parse_int o type); reflexivity.
Qed.
Lemma add_fill e e' d d' : Forall2 desc_fill e e' -> desc_fill d d' -> sim (Forall2 desc_fill) (add_layer e d) (add_layer e' d').
Proof.
  intros F D. unfold add_layer. rewrite (fill_names _ _ F), (df_name _ _ D). destruct (existsb _ _); [reflexivity|]. apply Forall2_app; auto.
Qed.
End Values.

(** ** The paths are different *)
Lemma pairs_nodup (is : list item) : ForallOrdPairs (fun i j : item => diverge (base i) (base j)) is -> NoDup (map base is).
Proof.
  induction 1 as [|i is H F IH]; cbn [map]; constructor; [|exact IH]. intro C. apply in_map_iff in C as (j & E & Hj). rewrite Forall_forall in H.
  apply H in Hj. apply diverge_ne in Hj. congruence.
Qed.
Ltac pairwise := repeat match goal with
    | |- ForallOrdPairs _ (_ :: _) => constructor
    | |- ForallOrdPairs _ [] => constructor
    | |- Forall _ (_ :: _) => constructor
    | |- Forall _ [] => constructor
    end.
Lemma layer_bases k name sizes size (v : layer_values A) : NoDup (map base (initial_params k name sizes size v)).
Proof.
  apply pairs_nodup. destruct k, v; cbn [initial_params]; unfold recurrent_params; cbn [app]; try apply inputs_diverge; pairwise;
    unfold base, param_path; rewrite <- ?app_assoc; apply diverge_after, diverge_after; vm_compute; repeat first [left; discriminate | right].
Qed.
Lemma output_bases k name (v : output_values A) : NoDup (map base (output_params k name v)).
Proof.
  apply pairs_nodup. destruct k, v; cbn [output_params]; pairwise;
    unfold base, param_path; rewrite <- ?app_assoc; apply diverge_after, diverge_after; vm_compute; repeat first [left; discriminate | right].
Qed.
Definition entries (is : list item) : params := map (fun i => (base i, snd i)) is.
Lemma entries_ok name (is : list item) : NoDup (map base is) -> Forall (item_ok name) is -> params_ok name (entries is).
Proof.
  intros ND F. unfold entries. constructor.
  - unfold is_dict, paths. rewrite map_map. exact ND.
  - apply Forall_map. revert F. apply Forall_impl. now intros i [R _].
  - unfold paths. rewrite map_map. apply Forall_map. revert F. apply Forall_impl. intros [[[layer pname] sp] v] [_ L]. cbn [fst base] in *.
    rewrite <- (app_nil_r (param_path _ _ _)). now apply in_layer_path.
Qed.
Lemma entries_get (is : list item) i : NoDup (map base is) -> In i is -> dict_get (base i) (entries is) = Some (snd i).
Proof.
  unfold entries. induction is as [|j is IH]; cbn [map dict_get]; [intros _ []|]. intros ND [->|I].
  - destruct (ParamProofs.pystr_eqb_spec (base i) (base i)); congruence.
  - inversion ND as [|? ? Nj ND']; subst. destruct (ParamProofs.pystr_eqb_spec (base j) (base i)) as [E|]; [|now apply IH].
    exfalso. apply Nj. rewrite E. now apply in_map.
Qed.
Lemma same_bases (is js : list item) : Forall2 same_item is js -> map base is = map base js.
Proof. induction 1 as [|[[[l n] s] v] [[[l' n'] s'] v'] is js [E _] F IH]; cbn [map]; [reflexivity|]. f_equal; [|exact IH]. cbn [fst] in E. injection E as <- <- <-. reflexivity. Qed.

(** Initial values that are elements of the given parameters *)
Definition given (js : list item) (initial : pystr -> pystr -> nat -> nat -> nat -> num) (layer name : pystr) : nat -> nat -> nat -> num :=
  match dict_get (param_path layer name None) (entries js) with Some v => element v | None => initial layer name end.
Lemma refill_given initial (all is js : list item) : NoDup (map base all) -> Forall2 same_item is js -> incl js all -> map (refill (given all initial)) is = js.
Proof.
  intros ND. induction 1 as [|[[[l n] s] v] [[[l' n'] s'] u] is js [E D] F IH]; intro I; cbn [map]; [reflexivity|]. cbn [fst snd] in *. injection E as <- <- <-.
  f_equal; [|apply IH; intros x Hx; apply I; now right]. cbn [refill]. unfold given. pose proof (entries_get all (l, n, s, u) ND (I _ (or_introl eq_refl))) as G.
  cbn [base snd] in G. rewrite G. now rewrite fill_element.
Qed.

(** ** Creating the network *)
Lemma layers_realise ds : forall sizes ls ls', create_layers sizes ds = Ok ls -> Forall desc_fine ds -> Forall2 other_layer ls ls' ->
  exists Is Js : list (list item),
    Forall2 (fun d is => exists zs, is = initial_params (d_kind d) (d_name d) zs (d_size d) (d_values d)) ds Is /\
    Forall2 (Forall2 same_item) Is Js /\
    forall initial' ds', Forall2 (desc_fill initial') ds ds' -> Forall2 (fun is js => map (refill initial') is = js) Is Js -> create_layers sizes ds' = Ok ls'.
Proof.
  induction ds as [|d ds IH]; intros sizes ls ls'; cbn [create_layers].
  - intros [= <-] _ F. inversion F; subst. exists [], []. split; [constructor|]. split; [constructor|]. intros initial' ds' Fd _. inversion Fd; subst. reflexivity.
  - unfold create_layer. destruct (mapM _ (d_inputs d)) as [zs|] eqn:Ez; cbn [bind]; [|discriminate].
    destruct (foldM _ _ []) as [ps|] eqn:E; cbn [bind]; [|discriminate]. destruct (create_layers _ ds) as [r|] eqn:Er; cbn [bind]; [|discriminate].
    intros [= <-] F O. inversion F as [|? ? [H1 H2] F']; subst. inversion O as [|? l' ? r' [] O']; subst. cbn [l_kind l_name l_inputs l_size l_activation l_devices l_scale l_params] in *.
    destruct (IH _ _ _ Er F' O') as (Is & Js & K1 & K2 & K3).
    destruct (items_exist _ _ _ (l_params l') E) as (js & S & Ej); [|assumption|].
    { apply Forall_forall. intros i Hi. specialize (H1 zs). rewrite Forall_forall in H1. now apply H1 in Hi as [? _]. }
    exists (initial_params (d_kind d) (d_name d) zs (d_size d) (d_values d) :: Is), (js :: Js). split; [constructor; eauto|]. split; [now constructor|].
    intros initial' ds' Fd Fr. inversion Fd as [|? d' ? ds0 D Fd']; subst. inversion Fr as [|? ? ? ? R Fr']; subst. cbn [create_layers]. unfold create_layer.
    destruct D. rewrite df_inputs0, Ez. cbn [bind]. rewrite df_values0, df_devices0. clear - Ej df_size0 df_kind0 df_name0 df_activation0 df_scale0 df_devices0 df_inputs0 K3 Fd' Fr' ol_kind ol_name ol_inputs ol_size ol_activation ol_devices ol_scale.
    rewrite Ej. cbn [bind]. rewrite df_size0, (K3 _ _ Fd' Fr'). cbn [bind]. do 2 f_equal. destruct l'. cbn in *. congruence.
Qed.
End Realise.

Section Main.
Context {A : arith}.
Notation num := (num A).
Notation item := (pystr * pystr * bool * param A)%type.
Variable parse_int : pystr -> result Z.
Variable dropout_scale : option ArchModel.value -> result num.

Lemma F2_map_concat X Y (R : X -> Y -> Prop) ls ms : Forall2 (Forall2 R) ls ms -> Forall2 R (concat ls) (concat ms).
Proof. induction 1; cbn [concat]; [constructor|]. now apply Forall2_app. Qed.
Lemma network_realise (initial : pystr -> pystr -> nat -> nat -> nat -> num) ds o n0 n : Forall desc_fine ds -> NoDup (map d_name ds ++ [o_name o]) -> ~ In 47%N (o_name o) ->
  Forall (item_ok (o_name o)) (output_params (o_kind o) (o_name o) (o_values o)) ->
  create_network ds o = Ok n0 -> other_values n0 n ->
  exists initial', forall ds' o', Forall2 (desc_fill initial') ds ds' -> out_fill initial' o o' -> create_network ds' o' = @Ok (network A) n.
Proof.
  intros Fd ND No Fo C O. unfold create_network in C. destruct (create_layers [] ds) as [ls|] eqn:El; cbn [bind] in C; [|discriminate].
  match type of C with context [bind ?z _] => destruct z as [[]|] eqn:EH; cbn [bind] in C; [|discriminate] end.
  destruct (foldM _ (output_params _ _ _) []) as [ps|] eqn:Ep; cbn [bind] in C; [|discriminate]. injection C as <-.
  destruct O. cbn [n_layers n_kind n_name n_inputs n_size n_devices n_params n_unk_class n_exclude_unk] in *.
  destruct (layers_realise _ _ _ _ El Fd ov_layers) as (Is & Js & K1 & K2 & K3).
  destruct (items_exist _ _ _ (n_params n) Ep) as (js & S & Ej); [|assumption|].
  { revert Fo. apply Forall_impl. now intros i [R _]. }
  set (all := concat Js ++ js).
  assert (NB : NoDup (map base all)).
  { assert (E : map base all = map base (concat Is ++ output_params (o_kind o) (o_name o) (o_values o))).
    { unfold all. rewrite !map_app. f_equal; symmetry; apply same_bases; [now apply F2_map_concat|exact S]. }
    rewrite E. clear E. pose proof (paths_different (combine (map d_name ds) (map entries Is) ++ [(o_name o, entries (output_params (o_kind o) (o_name o) (o_values o)))])) as G.
    assert (L : length (map d_name ds) = length (map (@entries A) Is)) by (rewrite !map_length; exact (F2_length _ _ _ _ _ K1)).
    rewrite map_app, (map_fst_combine _ _ L), flat_map_app in G. cbn [map fst flat_map snd] in G. rewrite app_nil_r in G.
    replace (map base (concat Is ++ output_params (o_kind o) (o_name o) (o_values o))) with
      (flat_map (fun x => paths (snd x)) (combine (map d_name ds) (map (@entries A) Is)) ++ paths (entries (output_params (o_kind o) (o_name o) (o_values o)))).
    - apply G; [exact ND|]. intros name qs I. apply in_app_or in I as [I|[[= <- <-]|[]]].
      + clear - K1 I Fd. revert I. induction K1 as [|d is ds Is (zs & ->) K1 IH]; cbn [map combine]; [intros []|]. inversion Fd as [|? ? [H1 H2] Fd']; subst.
        intros [[= <- <-]|I]; [|now apply IH]. split; [apply entries_ok; [apply layer_bases|apply H1]|]. destruct H2 as [H2|H2]; [left; now rewrite H2|now right].
      + split; [apply entries_ok; [apply output_bases|exact Fo]|now right].
    - rewrite map_app. unfold entries at 2, paths at 2. rewrite map_map. cbn [fst]. f_equal. clear - L. revert Is L. generalize (map d_name ds). intros names.
      induction names as [|x names IH]; intros [|is Is] L; cbn [map combine flat_map concat length] in *; try discriminate; [reflexivity|]. rewrite map_app, <- IH by lia.
      f_equal. unfold entries, paths. cbn [snd]. now rewrite map_map. }
  exists (given all initial). intros ds' o' D' O'. unfold create_network.
  rewrite (K3 (given all initial) ds' D').
  - destruct O'. cbn [bind]. rewrite of_kind0, of_devices0, EH. cbn [bind]. rewrite <- of_kind0, of_values0.
    rewrite (refill_given _ all _ js) by (try assumption; unfold all; apply incl_appr, incl_refl). rewrite Ej. cbn [bind]. f_equal. destruct n. cbn in *. congruence.
  - assert (I : Forall (fun js => incl js all) Js).
    { apply Forall_forall. intros x Hx i Hi. unfold all. apply in_or_app. left. apply in_concat. eauto. }
    clearbody all. clear - K2 I NB. induction K2 as [|is js' Is Js S K2 IH]; constructor.
    + inversion I; subst. now apply refill_given.
    + apply IH. now inversion I.
Qed.
Lemma build_realise (initial : pystr -> pystr -> nat -> nat -> nat -> num) default exclude a v n0 n : plain_names a -> build parse_int dropout_scale initial default exclude a v = Ok n0 -> other_values n0 n ->
  exists initial', build parse_int dropout_scale initial' default exclude a v = Ok n.
Proof.
  intros PN. unfold build at 1. destruct (foldM _ (a_inputs a) []) as [ins|] eqn:EI; cbn [bind]; [|discriminate].
  destruct (rev (a_layers a)) as [|o r] eqn:ER; [discriminate|]. destruct (foldM _ (rev r) ins) as [ds|] eqn:EH; cbn [bind]; [|discriminate].
  destruct (text o (str "name")) as [name|] eqn:EN; cbn [bind]; [|discriminate]. destruct (_ || _) eqn:EX; [discriminate|].
  destruct (output_layer _ _ _ _ _ _ _) as [out|] eqn:EO; cbn [bind]; [|discriminate]. intros C O.
  assert (EL : a_layers a = (rev r ++ [o])%list) by (rewrite <- (rev_involutive (a_layers a)), ER; reflexivity).
  unfold plain_names in PN. rewrite EL in PN. apply Forall_app in PN as [P1 P2]. inversion P2 as [|? ? Po _]; subst.
  destruct (@added_fine A (fun _ => True) (fun _ o => input_layer v o) (a_inputs a)) with (e := @nil (description A)) (ds := ins) as [F1 D1]; auto.
  { intros e q d _. apply input_fine. } { clear. induction (a_inputs a); constructor; auto. } { constructor. }
  destruct (added_fine plain_name _ (rev r) (fun e q d => hidden_fine _ _ _ _ e q d) P1 _ _ EH F1 D1) as [F2 D2].
  destruct (output_fine _ _ _ _ _ _ _ _ Po EO) as [On Oi]. assert (En : o_name out = name) by congruence.
  assert (Nn : ~ In name (map d_name ds)).
  { apply Bool.orb_false_elim in EX as [_ EX']. intro I. assert (existsb (pystr_eqb name) (map d_name ds) = true); [|congruence].
    apply existsb_exists. exists name. split; [exact I|]. destruct (BuildProofs.pystr_eqb_spec name name); congruence. }
  destruct (network_realise initial ds out n0 n F2) as (initial' & H); [rewrite En; now apply nodup_snoc|rewrite En; eapply plain_text; eauto|exact Oi|exact C|exact O|].
  exists initial'. unfold build. rewrite ER.
  assert (S1 : sim (Forall2 (desc_fill initial')) (foldM (fun ds o => do d <- input_layer v o; add_layer ds d) (a_inputs a) [])
                 (foldM (fun ds o => do d <- input_layer v o; add_layer ds d) (a_inputs a) [])).
  { apply (sim_foldM _ _ _ _ (Forall2 (desc_fill initial')) eq); [|now apply F2_refl|constructor]. intros e e' q q' E <-. eapply sim_bind; [apply (input_fill initial')|].
    intros d d' D. now apply add_fill. }
  rewrite EI in S1. cbn [sim] in S1. rewrite EI. cbn [bind].
  assert (S2 : sim (Forall2 (desc_fill initial')) (foldM (fun ds o => do d <- hidden_layer parse_int dropout_scale initial default ds o; add_layer ds d) (rev r) ins)
                 (foldM (fun ds o => do d <- hidden_layer parse_int dropout_scale initial' default ds o; add_layer ds d) (rev r) ins)).
  { apply (sim_foldM _ _ _ _ (Forall2 (desc_fill initial')) eq); [|now apply F2_refl|exact S1]. intros e e' q q' E <-. eapply sim_bind; [now apply hidden_fill|].
    intros d d' D. now apply add_fill. }
  rewrite EH in S2. match goal with |- context [foldM ?f (rev r) ins] => destruct (foldM f (rev r) ins) as [ds'|]; [|contradiction S2] end. cbn [sim] in S2. cbn [bind]. rewrite EN. cbn [bind].
  rewrite (fill_names _ _ _ S2), EX. pose proof (output_fill initial initial' parse_int default exclude v ds ds' o S2) as S3. rewrite EO in S3.
  match goal with |- context [output_layer ?a ?b ?c ?d ?e ds' o] => destruct (output_layer a b c d e ds' o) as [out'|]; [|contradiction S3] end. cbn [sim] in S3. cbn [bind]. now apply H.
Qed.
End Main.
