(** Splitting the parameters of layers to devices. *)
From Verif Require Import Base BaseLib ListLib Strings ParamModel NetModel NetColumns NetSteps DeviceModel DeviceSpec.

(** ** Ranges *)
Section Ranges.
Variables n total : nat.
Hypothesis Hn : 1 <= n.
Let q := total / n.
Let r := total mod n.
Definition bound i := i * q + Nat.min i r.
Lemma bound_0 : bound 0 = 0.
Proof. reflexivity. Qed.
Lemma bound_n : bound n = total.
Proof.
  unfold bound. pose proof (Nat.div_mod total n ltac:(lia)) as E. pose proof (Nat.mod_upper_bound total n ltac:(lia)) as U.
  fold q r in E, U. rewrite Nat.min_r by lia. lia.
Qed.
Lemma bound_S i : bound (S i) = bound i + q \/ bound (S i) = bound i + q + 1.
Proof. unfold bound. cbn [Nat.mul]. lia. Qed.
Definition ranges_from i k := map (fun j => (bound j, bound (S j))) (seq i k).
Lemma split_loop k : forall i acc,
  fold_left (fun '(ranges, start_index) i => let end_index := i * q + Nat.min i r in (ranges ++ [(start_index, end_index)], end_index))
            (seq (S i) k) (acc, bound i) = (acc ++ ranges_from i k, bound (i + k)).
Proof.
  unfold ranges_from. induction k as [|k IH]; intros i acc; cbn [seq fold_left map].
  - rewrite app_nil_r, Nat.add_0_r. reflexivity.
  - change (S i * q + Nat.min (S i) r) with (bound (S i)). cbv zeta. rewrite IH, <- app_assoc. cbn [app]. do 2 f_equal. lia.
Qed.
Lemma ranges_sum k : forall i acc, fold_left (fun n '(first, last) => n + (last - first)) (ranges_from i k) acc = acc + (bound (i + k) - bound i).
Proof.
  unfold ranges_from. assert (M : forall k i, bound i <= bound (i + k)).
  { induction k0 as [|k0 IH]; intro i; [now rewrite Nat.add_0_r|]. specialize (IH (S i)). replace (i + S k0) with (S i + k0) by lia. destruct (bound_S i); lia. }
  induction k as [|k IH]; intros i acc; cbn [seq map fold_left]; [rewrite Nat.add_0_r; lia|].
  rewrite IH. replace (i + S k) with (S i + k) by lia. pose proof (M k (S i)). destruct (bound_S i); lia.
Qed.
Lemma ranges_consecutive k : forall i, consecutive (bound i) (bound (i + k)) (ranges_from i k).
Proof.
  unfold ranges_from. induction k as [|k IH]; intro i; cbn [seq map consecutive]; [now rewrite Nat.add_0_r|].
  split; [reflexivity|]. split; [destruct (bound_S i); lia|]. replace (i + S k) with (S i + k) by lia. apply IH.
Qed.
Lemma ranges_size i k a b : In (a, b) (ranges_from i k) -> b - a = q \/ b - a = q + 1.
Proof. unfold ranges_from. intro H. apply in_map_iff in H as (j & E & _). injection E as <- <-. destruct (bound_S j); lia. Qed.
Lemma split_ok : n <= total -> split_per_device n total = Ok (ranges_from 0 n).
Proof.
  intro H. unfold split_per_device. destruct (Nat.ltb_spec n 1); [lia|]. destruct (Nat.ltb_spec total n); [lia|].
  fold q r. pose proof (split_loop n 0 []) as E. rewrite bound_0 in E. cbv zeta in *. rewrite E. cbn [app Nat.add]. rewrite bound_n.
  unfold ranges_from at 1. rewrite map_length, seq_length, Nat.eqb_refl. cbn [negb].
  rewrite ranges_sum. cbn [Nat.add]. rewrite bound_n, bound_0, Nat.sub_0_r, !Nat.eqb_refl. reflexivity.
Qed.
End Ranges.

Lemma split_inv n total ranges : split_per_device n total = Ok ranges ->
  1 <= n <= total /\ length ranges = n /\ consecutive 0 total ranges /\
  (forall a b, In (a, b) ranges -> b - a = total / n \/ b - a = total / n + 1).
Proof.
  intro H. assert (C : 1 <= n <= total).
  { unfold split_per_device in H. destruct (Nat.ltb_spec n 1); [discriminate|]. destruct (Nat.ltb_spec total n); [discriminate|]. lia. }
  split; [exact C|]. rewrite split_ok in H by lia. injection H as <-. split; [unfold ranges_from; now rewrite map_length, seq_length|].
  split; [|apply ranges_size; lia]. pose proof (ranges_consecutive n total (proj1 C) n 0) as E. rewrite bound_0 in E. cbn [Nat.add] in E.
  rewrite bound_n in E by lia. exact E.
Qed.

Lemma skipn_skipn X (l : list X) a b : skipn a (skipn b l) = skipn (a + b) l.
Proof. revert l; induction b as [|b IH]; intro l; [now rewrite Nat.add_0_r|]. rewrite Nat.add_succ_r. destruct l; [now rewrite !skipn_nil|apply IH]. Qed.
Lemma slices_concat X (l : list X) ranges : forall first, consecutive first (length l) ranges ->
  concat (map (fun r => slice_range r l) ranges) = skipn first l.
Proof.
  induction ranges as [|[a b] ranges IH]; intros first; cbn [consecutive map concat].
  - intros ->. now rewrite skipn_all.
  - intros (-> & L & C). rewrite (IH b C). unfold slice_range. cbn [fst snd].
    rewrite <- (firstn_skipn (b - first) (skipn first l)) at 2. f_equal. rewrite skipn_skipn. f_equal. lia.
Qed.
Lemma slice_length X (l m : list X) r : length l = length m -> length (slice_range r l) = length (slice_range r m).
Proof. intro H. unfold slice_range. rewrite !firstn_length, !skipn_length. lia. Qed.

Lemma F2_impl X Y (P Q : X -> Y -> Prop) l m : (forall x y, P x y -> Q x y) -> Forall2 P l m -> Forall2 Q l m.
Proof. intro H. induction 1; constructor; auto. Qed.

(** ** Parameters *)
Section Params.
Context {A : arith}.
Notation num := (num A).
Notation vec := (list num).
Notation matrix := (list (list num)).
Notation tensor := (list (list (list num))).
Notation params := (list (pystr * param A)).

Definition extends (ps ps' : params) : Prop := forall p v, dict_get p ps = Some v -> dict_get p ps' = Some v.
Lemma dict_get_app p (ps qs : params) : dict_get p (ps ++ qs) = match dict_get p ps with Some v => Some v | None => dict_get p qs end.
Proof. induction ps as [|[q v] ps IH]; cbn [app dict_get]; [reflexivity|]. destruct (pystr_eqb q p); auto. Qed.
Lemma add_get p v ps ps' : add_param p v ps = Ok ps' -> dict_get p ps' = Some v /\ extends ps ps'.
Proof.
  unfold add_param. destruct (dict_get p ps) eqn:E; [discriminate|]. intro H. injection H as <-. split.
  - rewrite dict_get_app, E. cbn [dict_get]. unfold pystr_eqb. destruct (pystr_eq_dec p p); congruence.
  - intros x u Hx. rewrite dict_get_app, Hx. reflexivity.
Qed.
Lemma extends_trans a b c : extends a b -> extends b c -> extends a c.
Proof. intros H H' p v E. auto. Qed.

(** Where the parts of a parameter are *)
Definition placed (devices : list (option pystr)) (ps : params) (i : pystr * pystr * bool * param A) : Prop :=
  let '(layer, name, split, v) := i in
  if negb split then dict_get (param_path layer name None) ps = Some v
  else (devices = [None] /\ dict_get (param_path layer name None) ps = Some v) \/
       (devices <> [None] /\ exists ranges, split_per_device (length devices) (last_dimension v) = Ok ranges /\
        Forall2 (fun d r => (exists x, d = Some x) /\ dict_get (param_path layer name d) ps = Some (part r v)) devices ranges).
Lemma placed_extends devices ps ps' i : extends ps ps' -> placed devices ps i -> placed devices ps' i.
Proof.
  destruct i as [[[layer name] [|]] v]; cbn [placed negb]; intros E.
  - intros [[-> H]|[D (ranges & S & H)]]; [left; auto|]. right. split; [exact D|]. exists ranges. split; [exact S|].
    eapply F2_impl; [|exact H]. cbn. intros d r [X Y]. auto.
  - auto.
Qed.

Lemma parts_get layer name v (dr : list (option pystr * (nat * nat))) : forall ps ps',
  foldM (fun ps '(device, range) =>
      match device with
      | None => Err AssertionError
      | Some d => add_param (param_path layer name None ++ str "/" ++ d)%list (part range v) ps
      end) dr ps = Ok ps' ->
  extends ps ps' /\ Forall (fun '(d, r) => (exists x, d = Some x) /\ dict_get (param_path layer name d) ps' = Some (part r v)) dr.
Proof.
  induction dr as [|[d r] dr IH]; intros ps ps'; cbn [foldM].
  - intro H. injection H as <-. split; [intros p u; auto|constructor].
  - destruct d as [d|]; cbn [bind]; [|discriminate].
    destruct (add_param _ _ ps) as [ps1|e] eqn:E; cbn [bind]; [|discriminate]. intro H.
    apply add_get in E as [G X]. apply IH in H as [X' F]. split; [eapply extends_trans; eauto|].
    constructor; [|exact F]. split; [eauto|]. apply X'. rewrite <- G. f_equal. unfold param_path. rewrite <- !app_assoc. reflexivity.
Qed.
Lemma Forall_combine2 X Y (P : X -> Y -> Prop) (l : list X) (m : list Y) : length l = length m ->
  Forall (fun '(x, y) => P x y) (combine l m) -> Forall2 P l m.
Proof.
  revert m; induction l as [|x l IH]; intros [|y m] L F; cbn in *; try discriminate; constructor; inversion F; auto.
Qed.
Lemma init_placed devices ps i ps' : init_param devices ps i = Ok ps' -> placed devices ps' i /\ extends ps ps'.
Proof.
  destruct i as [[[layer name] split] v]. unfold init_param, placed. destruct (negb split).
  - apply add_get.
  - assert (D : devices = [None] \/ devices <> [None]).
    { destruct devices as [|[d|] [|? ?]]; try (right; discriminate). now left. }
    destruct D as [->|D].
    + intro H. apply add_get in H as [H X]. split; [left; auto|exact X].
    + intro H. assert (H' : (do ranges <- split_per_device (length devices) (last_dimension v);
        foldM (fun ps '(device, range) =>
          match device with
          | None => Err AssertionError
          | Some d => add_param (param_path layer name None ++ str "/" ++ d)%list (part range v) ps
          end) (combine devices ranges) ps) = Ok ps').
      { destruct devices as [|[d|] [|? ?]]; try exact H. congruence. }
      clear H. destruct (split_per_device _ _) as [ranges|e] eqn:S; cbn [bind] in H'; [|discriminate].
      apply parts_get in H' as [X F]. split; [|exact X]. right. split; [exact D|]. exists ranges. split; [reflexivity|].
      apply Forall_combine2; [|eapply Forall_impl; [|exact F]; intros [d r]; auto].
      apply split_inv in S as (_ & -> & _). reflexivity.
Qed.
Lemma init_all devices is : forall ps ps', foldM (init_param devices) is ps = Ok ps' ->
  extends ps ps' /\ Forall (placed devices ps') is.
Proof.
  induction is as [|i is IH]; intros ps ps'; cbn [foldM].
  - intro H. injection H as <-. split; [intros p u; auto|constructor].
  - destruct (init_param devices ps i) as [ps1|e] eqn:E; cbn [bind]; [|discriminate]. intro H.
    apply init_placed in E as [P X]. apply IH in H as [X' F]. split; [eapply extends_trans; eauto|]. constructor; [|exact F].
    eapply placed_extends; eauto.
Qed.

(** ** Parts of products *)
Lemma map2_maps X Y Z W (f : Y -> Z -> W) (g : X -> Y) (h : X -> Z) l : map2 f (map g l) (map h l) = map (fun x => f (g x) (h x)) l.
Proof. induction l as [|x l IH]; cbn; [reflexivity|]. now rewrite IH. Qed.
Lemma map2_app X Y Z (f : X -> Y -> Z) a b a' b' : length a = length b -> map2 f (a ++ a') (b ++ b') = map2 f a b ++ map2 f a' b'.
Proof. revert b; induction a as [|x a IH]; intros [|y b] L; cbn in *; try discriminate; [reflexivity|]. f_equal. apply IH. lia. Qed.
Lemma part_app ub (x : tensor) (w w' : list vec) (b b' : vec) : (ub = true -> length b = length w) ->
  map2 (map2 (@app num)) (preact_part ub x (w, b)) (preact_part ub x (w', b')) = preact_part ub x (w ++ w', b ++ b').
Proof.
  intro L. unfold preact_part. cbn [fst snd]. destruct ub.
  - rewrite !map_map, map2_maps. apply map_ext. intro m. unfold mdot. rewrite !map_map, map2_maps. apply map_ext. intro row.
    rewrite map_app, map2_app; [reflexivity|]. rewrite map_length. symmetry. auto.
  - rewrite map2_maps. apply map_ext. intro m. unfold mdot. rewrite map2_maps. apply map_ext. intro row. now rewrite map_app.
Qed.
Lemma parts_app ub (x : tensor) parts : (ub = true -> Forall (fun p => length (snd p) = length (fst p)) parts) ->
  forall w b, (ub = true -> length b = length w) ->
  fold_left (map2 (map2 (@app num))) (map (preact_part ub x) parts) (preact_part ub x (w, b)) =
  preact_part ub x (w ++ concat (map fst parts), b ++ concat (map snd parts)).
Proof.
  induction parts as [|[w' b'] parts IH]; intros F w b L; cbn [map fold_left concat]; [now rewrite !app_nil_r|].
  rewrite part_app by exact L. rewrite IH.
  - cbn [fst snd]. now rewrite <- !app_assoc.
  - intro U. specialize (F U). now inversion F.
  - intro U. specialize (F U). specialize (L U). inversion F as [|? ? H1 H2]. cbn [fst snd] in H1. rewrite !app_length. lia.
Qed.

Lemma mapM_Forall2 X Y Z (f : X -> result Y) (g : Z -> Y) l m : Forall2 (fun x z => f x = Ok (g z)) l m -> mapM f l = Ok (map g m).
Proof. induction 1 as [|x z l m H _ IH]; cbn [mapM map]; [reflexivity|]. rewrite H. cbn [bind]. rewrite IH. reflexivity. Qed.
Lemma Forall2_and X Y (P Q : X -> Y -> Prop) l m : Forall2 P l m -> Forall2 Q l m -> Forall2 (fun x y => P x y /\ Q x y) l m.
Proof. induction 1; intro H'; inversion H'; constructor; auto. Qed.

Lemma placed_preact devices ps layer name w b (x : tensor) : length b = length w ->
  placed devices ps (layer, (name ++ str "/W")%list, true, Weight w) -> placed devices ps (layer, (name ++ str "/b")%list, true, Bias b) ->
  tensor_preact ps layer devices x name true = Ok (preact_part true x (w, b)).
Proof.
  intros L [[-> W]|[D (ranges & S & W)]] [[D' B]|[D' (ranges' & S' & B)]]; try congruence; cbn [last_dimension] in *.
  - unfold tensor_preact, get_weight, get_bias, get_param. cbn [mapM]. rewrite W, B. cbn [bind map concat_features fold_left]. reflexivity.
  - rewrite L, S in S'. injection S' as <-. pose proof (Forall2_and _ _ _ _ _ _ W B) as WB.
    unfold tensor_preact. rewrite (mapM_Forall2 _ _ _ _ (fun r => (slice_range r w, slice_range r b)) _ ranges).
    2: { eapply F2_impl; [|exact WB]. cbv beta. intros d r [[_ GW] [_ GB]]. unfold get_weight, get_bias, get_param. rewrite GW, GB. reflexivity. }
    cbn [bind]. apply split_inv in S as (C & LR & CR & _). pose proof (slices_concat _ w ranges 0 CR) as SW. rewrite <- L in CR.
    pose proof (slices_concat _ b ranges 0 CR) as SB. cbn [skipn] in SW, SB.
    destruct ranges as [|r ranges]; [cbn in LR; lia|]. cbn [map concat_features]. rewrite map_map, <- (map_map _ (preact_part true x)).
    rewrite parts_app.
    + rewrite !map_map. cbn [fst snd]. cbn [map concat] in SW, SB. f_equal. f_equal. congruence.
    + intros _. apply Forall_map, Forall_forall. intros z _. cbn [fst snd]. unfold slice_range. rewrite !firstn_length, !skipn_length. lia.
    + intros _. unfold slice_range. rewrite !firstn_length, !skipn_length. lia.
Qed.
Lemma placed_preact_no_bias devices ps layer name w (x : tensor) :
  placed devices ps (layer, (name ++ str "/W")%list, true, Weight w) ->
  tensor_preact ps layer devices x name false = Ok (preact_part false x (w, [])).
Proof.
  intros [[-> W]|[D (ranges & S & W)]]; cbn [last_dimension] in *.
  - unfold tensor_preact, get_weight, get_param. cbn [mapM]. rewrite W. cbn [bind map concat_features fold_left]. reflexivity.
  - unfold tensor_preact. rewrite (mapM_Forall2 _ _ _ _ (fun r => (slice_range r w, [])) _ ranges).
    2: { eapply F2_impl; [|exact W]. cbv beta. intros d r [_ GW]. unfold get_weight, get_param. rewrite GW. reflexivity. }
    cbn [bind]. apply split_inv in S as (C & LR & CR & _). pose proof (slices_concat _ w ranges 0 CR) as SW. cbn [skipn] in SW.
    destruct ranges as [|r ranges]; [cbn in LR; lia|]. cbn [map concat_features]. rewrite map_map, <- (map_map _ (preact_part false x)).
    rewrite parts_app by discriminate. rewrite !map_map. cbn [fst snd]. cbn [map concat] in SW. rewrite SW. reflexivity.
Qed.
End Params.
