(** When the parameters of a layer can be created. *)
From Coq Require Import ZArith.
From Verif Require Import Base BaseLib ListLib Strings NumStr VocabModel ArchModel ArchSpec ParamModel NetModel NetSpec
  DeviceModel DeviceProofs DeviceNet OutputModel OutputProofs BuildModel BuildSpec BuildShape BuildLayers BuildNet DescribedSpec AcceptSpec.
Local Open Scope nat_scope.

(** ** Strings that differ before either of them ends *)
Fixpoint diverge (a b : pystr) : Prop :=
  match a, b with
  | x :: a', y :: b' => x <> y \/ diverge a' b'
  | _, _ => False
  end.
Lemma diverge_app a b r s : diverge a b -> diverge (a ++ r) (b ++ s).
Proof. revert b; induction a as [|x a IH]; intros [|y b]; cbn [diverge app]; try tauto. intros [H|H]; auto. Qed.
Lemma diverge_after p a b : diverge a b -> diverge (p ++ a) (p ++ b).
Proof. induction p as [|x p IH]; cbn [diverge app]; auto. Qed.
Lemma diverge_ne a b : diverge a b -> a <> b.
Proof. revert b; induction a as [|x a IH]; intros [|y b]; cbn [diverge]; try tauto. intros [H|H] E; injection E as E E'; [auto|]. now apply (IH b). Qed.
Lemma diverge_sep c s t r u : ~ In c s -> ~ In c t -> s <> t -> diverge (s ++ c :: r) (t ++ c :: u).
Proof.
  revert t; induction s as [|x s IH]; intros [|y t] Hs Ht Hn; cbn [diverge app].
  - congruence.
  - left. intros <-. apply Ht. now left.
  - left. intros ->. apply Hs. now left.
  - destruct (N.eq_dec x y) as [->|]; [|auto]. right. apply IH; [intro; apply Hs; now right|intro; apply Ht; now right|congruence].
Qed.
Lemma digits_no_slash n : ~ In 47%N (str_of_nat n).
Proof. unfold str_of_nat. generalize (Nat.to_uint n). induction u as [| | | | | | | | | |]; cbn [uint_chars]; try (intros [C|C]; [discriminate|auto]). auto. Qed.

Section Params.
Context {A : arith}.
Notation params := (list (pystr * param A)).
Notation item := (pystr * pystr * bool * param A)%type.
Definition base (i : item) : pystr := let '(layer, name, _, _) := i in param_path layer name None.

Lemma get_in p (ps : params) v : ParamModel.dict_get p ps = Some v -> In p (map fst ps).
Proof. induction ps as [|[q u] ps IH]; cbn [ParamModel.dict_get map fst]; [discriminate|]. destruct (pystr_eqb q p) eqn:E; [|right; auto]. intros _. left. unfold pystr_eqb in E. now destruct (pystr_eq_dec q p). Qed.
Lemma add_ok p v (ps : params) : ~ In p (map fst ps) -> add_param p v ps = Ok (ps ++ [(p, v)]).
Proof. intro H. unfold add_param. destruct (ParamModel.dict_get p ps) eqn:E; [|reflexivity]. now apply get_in in E. Qed.

Definition part_step (path : pystr) (v : param A) (ps : params) (dr : option pystr * (nat * nat)) : result params :=
  let '(device, range) := dr in
  match device with
  | None => Err AssertionError
  | Some d => add_param (path ++ str "/" ++ d)%list (part range v) ps
  end.
Lemma parts_ok path v dr : forall ps : params, NoDup (map fst dr) -> (forall d, In d (map fst dr) -> exists x, d = Some x) ->
  (forall x, In (Some x) (map fst dr) -> ~ In (path ++ str "/" ++ x)%list (map fst ps)) ->
  exists ps', foldM (part_step path v) dr ps = Ok ps' /\ forall key, In key (map fst ps') -> In key (map fst ps) \/ exists s, key = (path ++ s)%list.
Proof.
  induction dr as [|[d r] dr IH]; intros ps ND Hs Hf; cbn [foldM].
  - exists ps. split; [reflexivity|auto].
  - destruct (Hs d ltac:(now left)) as [x ->]. cbn [part_step]. rewrite add_ok by (apply Hf; now left). cbn [bind].
    cbn [map fst] in ND. inversion ND as [|? ? Hn ND' ]; subst.
    destruct (IH (ps ++ [((path ++ str "/" ++ x)%list, part r v)]) ND') as (ps' & E & K).
    + intros d Hd. apply Hs. now right.
    + intros y Hy C. rewrite map_app, in_app_iff in C. destruct C as [C|[C|[]]]; [apply (Hf y); [now right|exact C]|]. cbn [fst] in C. apply app_inv_head in C. apply app_inv_head in C. congruence.
    + exists ps'. split; [exact E|]. intros key Hk. destruct (K key Hk) as [Hk'|Hk']; [|auto]. rewrite map_app, in_app_iff in Hk'. destruct Hk' as [Hk'|[<-|[]]]; [auto|]. right. cbn [fst]. eauto.
Qed.

(** The devices of a layer other than a network input *)
Definition some_devices (devices : list (option pystr)) : Prop := devices = [None] \/ exists names, names <> [] /\ devices = map Some names.
Definition splits (devices : list (option pystr)) (i : item) : Prop :=
  let '(_, _, split, v) := i in split = true -> devices = [None] \/ length devices <= last_dimension v /\ NoDup devices.
Lemma map_fst_combine {X Y} (l : list X) (m : list Y) : length l = length m -> map fst (combine l m) = l.
Proof. revert m; induction l as [|x l IH]; intros [|y m] H; cbn in *; try discriminate; [reflexivity|]. f_equal. auto. Qed.
Lemma init_unfold devices (ps : params) layer name v : devices <> [None] ->
  init_param devices ps (layer, name, true, v) =
  do ranges <- split_per_device (length devices) (last_dimension v); foldM (part_step (param_path layer name None) v) (combine devices ranges) ps.
Proof. intro D. cbn [init_param negb]. destruct devices as [|[d|] [|? ?]]; try reflexivity. congruence. Qed.
Lemma init_ok devices (ps : params) i : some_devices devices -> splits devices i -> (forall key, In key (map fst ps) -> diverge key (base i)) ->
  exists ps', init_param devices ps i = Ok ps' /\ forall key, In key (map fst ps') -> In key (map fst ps) \/ exists s, key = (base i ++ s)%list.
Proof.
  destruct i as [[[layer name] split] v]. cbn [splits base]. intros SD Sp Dv.
  assert (Add : exists ps', add_param (param_path layer name None) v ps = Ok ps' /\
    forall key, In key (map fst ps') -> In key (map fst ps) \/ exists s, key = (param_path layer name None ++ s)%list).
  { rewrite add_ok by (intro C; apply Dv in C; now apply diverge_ne in C). eexists. split; [reflexivity|]. intros key Hk. rewrite map_app, in_app_iff in Hk.
    destruct Hk as [Hk|[<-|[]]]; [auto|]. right. exists []. now rewrite app_nil_r. }
  destruct split; [|exact Add]. destruct SD as [->|(names & Hn & ->)]; [exact Add|].
  rewrite init_unfold by (destruct names as [|? [|]]; discriminate). destruct (Sp eq_refl) as [C|[L ND]]; [destruct names as [|? [|]]; discriminate C|].
  rewrite split_ok by (rewrite map_length in *; destruct names; [contradiction|cbn [length] in *; lia]). cbn [bind].
  match goal with |- context [combine _ ?r] => assert (LR : length (map Some names) = length r) end.
  { unfold ranges_from. now rewrite map_length, map_length, seq_length. }
  pose proof (map_fst_combine _ _ LR) as MF. apply parts_ok.
  - exact (eq_ind_r (fun l => NoDup l) ND MF).
  - intros d Hd. apply (eq_ind _ (fun l => In d l) Hd) in MF. clear Hd. rename MF into Hd. apply in_map_iff in Hd as (x & <- & _). eauto.
  - intros x _ C. apply Dv in C. assert (C' := diverge_app _ _ [] (str "/" ++ x)%list C). rewrite app_nil_r in C'. now apply diverge_ne in C'.
Qed.
Lemma init_all_ok devices is : some_devices devices -> forall ps : params, Forall (splits devices) is -> ForallOrdPairs (fun i j => diverge (base i) (base j)) is ->
  (forall key i, In key (map fst ps) -> In i is -> diverge key (base i)) -> exists ps', foldM (init_param devices) is ps = Ok ps'.
Proof.
  intro SD. induction is as [|i is IH]; intros ps F O Dv; cbn [foldM]; [eauto|]. inversion F as [|? ? F1 F2]; subst. inversion O as [|? ? O1 O2]; subst.
  destruct (init_ok devices ps i SD F1) as (ps1 & E & K); [intros key Hk; apply Dv; [exact Hk|now left]|]. rewrite E. cbn [bind]. apply IH; [exact F2|exact O2|].
  intros key j Hk Hj. destruct (K key Hk) as [Hk'|(s & ->)]; [apply Dv; [exact Hk'|now right]|]. rewrite Forall_forall in O1.
  rewrite <- (app_nil_r (base j)). apply diverge_app. auto.
Qed.

(** The other direction *)
Lemma parts_nodup path v dr : forall ps ps' : params, foldM (part_step path v) dr ps = Ok ps' ->
  NoDup (map fst dr) /\ forall x, In (Some x) (map fst dr) -> ParamModel.dict_get (path ++ str "/" ++ x)%list ps = None.
Proof.
  induction dr as [|[d r] dr IH]; intros ps ps'; cbn [foldM map fst]; [intros _; split; [constructor|intros ? []]|].
  destruct (part_step path v ps (d, r)) as [ps1|] eqn:E; cbn [bind]; [|discriminate]. intro H. destruct (IH _ _ H) as [ND Ab].
  destruct d as [d|]; [|discriminate]. cbn [part_step] in E.
  assert (E0 : ParamModel.dict_get (path ++ str "/" ++ d)%list ps = None) by (unfold add_param in E; destruct (ParamModel.dict_get _ ps); [discriminate|reflexivity]).
  apply add_get in E as [G X]. split.
  - constructor; [|exact ND]. intro C. apply Ab in C. congruence.
  - intros x [[= ->]|Hx]; [exact E0|]. apply Ab in Hx. destruct (ParamModel.dict_get (path ++ str "/" ++ x)%list ps) eqn:Q; [|reflexivity]. apply X in Q. congruence.
Qed.
Lemma init_splits devices (ps ps' : params) i : init_param devices ps i = Ok ps' -> splits devices i.
Proof.
  destruct i as [[[layer name] split] v]. cbn [splits]. intros H ->.
  assert (D : devices = [None] \/ devices <> [None]).
  { destruct devices as [|[d|] [|? ?]]; try (right; discriminate). now left. }
  destruct D as [->|D]; [now left|]. right. rewrite init_unfold in H by exact D. destruct (split_per_device _ _) as [ranges|] eqn:S; cbn [bind] in H; [|discriminate].
  apply DeviceProofs.split_inv in S as (C & LR & _). apply parts_nodup in H as [ND _]. rewrite map_fst_combine in ND by auto. split; [lia|exact ND].
Qed.
Lemma init_all_splits devices is : forall ps ps' : params, foldM (init_param devices) is ps = Ok ps' -> Forall (splits devices) is.
Proof.
  induction is as [|i is IH]; intros ps ps'; cbn [foldM]; [constructor|]. destruct (init_param devices ps i) as [ps1|] eqn:E; cbn [bind]; [|discriminate].
  intro H. constructor; [eapply init_splits; eauto|eauto].
Qed.
End Params.

Section Layers.
Context {A : arith}.
Variable initial : pystr -> pystr -> nat -> nat -> nat -> num A.
Notation item := (pystr * pystr * bool * param A)%type.

(** Every array that is divided has one of the sizes, and every size is that of some array. *)
Definition divides (sizes : list nat) (is : list item) : Prop :=
  (forall l n v, In (l, n, true, v) is -> In (last_dimension v) sizes) /\
  (forall s, In s sizes -> exists l n v, In (l, n, true, v) is /\ last_dimension v = s).
Lemma divides_iff sizes (is : list item) devices : divides sizes is -> (Forall (splits devices) is <-> can_divide sizes devices).
Proof.
  intros [D1 D2]. unfold can_divide. rewrite Forall_forall. split.
  - intro F. destruct sizes as [|s sizes]; [auto|].
    assert (D : devices = [None] \/ devices <> [None]).
    { destruct devices as [|[d|] [|? ?]]; try (right; discriminate). now left. }
    destruct D as [->|D]; [auto|]. right. right.
    assert (G : forall x, In x (s :: sizes) -> length devices <= x /\ NoDup devices).
    { intros x Hx. destruct (D2 x Hx) as (l & n & v & Hi & <-). destruct (F _ Hi eq_refl) as [C|C]; [contradiction|exact C]. }
    split; [apply Forall_forall; intros x Hx; now apply G|]. apply (G s). now left.
  - intros H [[[l n] split] v] Hi. cbn [splits]. intros ->. specialize (D1 _ _ _ Hi). destruct H as [H|[->|[H ND]]]; [auto|destruct D1|]. right. rewrite Forall_forall in H. auto.
Qed.

Lemma new_matrix_length layer name i rows columns : length (new_matrix initial layer name i rows columns) = columns.
Proof. unfold new_matrix. now rewrite map_length, seq_length. Qed.
Lemma new_bias_length layer name size : length (new_bias initial layer name size) = size.
Proof. unfold new_bias. now rewrite map_length, seq_length. Qed.
Lemma new_matrices_dim layer name count rows columns : count <> 0 ->
  match new_matrices initial layer name count rows columns with [] => 0 | m :: _ => length m end = columns.
Proof. intro H. unfold new_matrices. destruct count as [|c]; [congruence|]. cbn [seq map]. apply new_matrix_length. Qed.

Ltac in_items := repeat match goal with
  | H : _ \/ _ |- _ => destruct H as [H|H]
  | H : In _ (_ :: _) |- _ => destruct H as [H|H]
  | H : In _ [] |- _ => destruct H
  | H : (_, _, _, _) = (_, _, _, _) |- _ => injection H; clear H; intros; subst
  | H : false = true |- _ => discriminate H
  end.
Ltac dims HG := subst; cbn [last_dimension]; rewrite ?new_matrix_length; try rewrite (new_matrices_dim _ _ _ _ _ (HG _ eq_refl)); reflexivity.
Lemma layer_divides k name input_sizes size : input_kind k = false -> (forall f, k = GLU f -> f <> 0) ->
  divides (divided k input_sizes size) (initial_params k name input_sizes size (new_values initial k name input_sizes size)).
Proof.
  intros HI HG. split.
  - intros l n v Hi. destruct k; try discriminate HI;
      cbn [new_values initial_params recurrent_matrices divided] in *; unfold recurrent_params in *; cbn [app] in *;
      try (in_items; cbn [last_dimension In]; rewrite ?new_matrix_length, ?new_bias_length; try rewrite (new_matrices_dim _ _ _ _ _ (HG _ eq_refl)); auto; fail).
    all: try (in_items; cbn [last_dimension In]; rewrite ?new_bias_length; try rewrite (new_matrices_dim _ _ _ _ _ (HG _ eq_refl)); left; lia).
    apply in_flat_map in Hi as ([i z] & Hz & Hi). destruct (Nat.eqb_spec z size) as [|Hne]; [destruct Hi|]. in_items. cbn [last_dimension]. rewrite new_matrix_length.
    replace (forallb (fun s => s =? size) input_sizes) with false; [now left|]. symmetry. apply Bool.not_true_is_false. intro C. rewrite forallb_forall in C.
    apply in_combine_r in Hz. apply C in Hz. apply Nat.eqb_eq in Hz. contradiction.
  - intros s Hs. destruct k; try discriminate HI; cbn [new_values initial_params recurrent_matrices divided] in *; unfold recurrent_params in *; cbn [app] in *.
    all: try (in_items; subst; do 3 eexists; first [solve [split; [left; reflexivity|dims HG]]|solve [split; [right; right; right; left; reflexivity|dims HG]]]; fail).
    destruct (forallb _ input_sizes) eqn:E; [destruct Hs|]. destruct Hs as [->|[]].
    assert (X : exists i z, In (i, z) (combine (seq 0 (length input_sizes)) input_sizes) /\ (z =? s) = false).
    { revert E. generalize 0. induction input_sizes as [|z zs IH]; intros i; cbn [forallb length seq combine]; [discriminate|].
      destruct (z =? s) eqn:Q; cbn [andb].
      - intro H. destruct (IH (S i) H) as (i' & z' & I1 & I2). exists i', z'. split; [now right|exact I2].
      - intros _. exists i, z. split; [now left|exact Q]. }
    destruct X as (i & z & I1 & I2). do 3 eexists. split; [apply in_flat_map; exists (i, z); split; [exact I1|rewrite I2; now left]|]. cbn [last_dimension]. apply new_matrix_length.
Qed.

(** The paths are different. *)
Lemma inputs_diverge name w size input_sizes : forall start,
  ForallOrdPairs (fun i j : item => diverge (base i) (base j))
    (flat_map (fun '(i, input_size) => if input_size =? size then [] else [(name, (str "input" ++ str_of_nat i ++ str "/W")%list, true, Weight (w i))])
       (combine (seq start (length input_sizes)) input_sizes)).
Proof.
  induction input_sizes as [|z zs IH]; intro start; cbn [length seq combine flat_map]; [constructor|].
  destruct (z =? size); cbn [app]; [apply IH|]. constructor; [|apply IH]. apply Forall_forall. intros j Hj. apply in_flat_map in Hj as ([i z'] & Hz & Hj).
  destruct (z' =? size); [destruct Hj|]. destruct Hj as [<-|[]]. apply in_combine_l, in_seq in Hz. unfold base, param_path. rewrite <- ?app_assoc.
  apply diverge_after, diverge_after, diverge_after, diverge_after.
  change (str "/W" ++ [])%list with (47 :: str "W")%N. apply diverge_sep; try apply digits_no_slash. intro C. apply str_of_nat_inj in C. lia.
Qed.
Lemma layer_diverge k name input_sizes size :
  ForallOrdPairs (fun i j : item => diverge (base i) (base j)) (initial_params k name input_sizes size (new_values initial k name input_sizes size)).
Proof.
  destruct k; cbn [new_values initial_params recurrent_matrices]; unfold recurrent_params; cbn [app]; try apply inputs_diverge;
    repeat match goal with
    | |- ForallOrdPairs _ (_ :: _) => constructor
    | |- ForallOrdPairs _ [] => constructor
    | |- Forall _ (_ :: _) => constructor
    | |- Forall _ [] => constructor
    end; unfold base, param_path; rewrite <- ?app_assoc; apply diverge_after, diverge_after; vm_compute;
    repeat first [left; discriminate | right].
Qed.
End Layers.
