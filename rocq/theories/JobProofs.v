(** Proofs about dividing lattices to jobs and cutting lattice archives. *)
From Coq Require Import Permutation.
From Verif Require Import Base Strings ListLib BaseLib SlfModel KaldiModel LatticeSpec.
Local Open Scope nat_scope.

Lemma slice_step_nth {A} (l : list A) step : 1 <= step -> forall fuel start k,
  length l <= start + fuel ->
  nth_error (slice_step fuel l start step) k = nth_error l (start + k * step).
Proof.
  intros Hs. induction fuel as [|fuel IH]; intros start k Hf; cbn [slice_step].
  - replace (nth_error (@nil A) k) with (@None A) by now destruct k.
    symmetry. apply nth_error_None. lia.
  - destruct (nth_error l start) as [x|] eqn:E.
    + destruct k as [|k]; cbn [nth_error].
      * now rewrite Nat.mul_0_l, Nat.add_0_r.
      * rewrite IH by lia. f_equal. lia.
    + replace (nth_error (@nil A) k) with (@None A) by now destruct k.
      symmetry. apply nth_error_None. apply nth_error_None in E. lia.
Qed.

Lemma slice_step_length {A} (l : list A) n j : 1 <= n -> j < n ->
  length (slice_step (length l) l j n) = (length l + (n - 1 - j)) / n.
Proof.
  intros Hn Hj. set (r := slice_step (length l) l j n).
  assert (H : forall k, nth_error r k = nth_error l (j + k * n)).
  { intros k. apply slice_step_nth; [exact Hn|lia]. }
  pose proof (Nat.div_mod (length l + (n - 1 - j)) n ltac:(lia)) as D.
  pose proof (Nat.mod_upper_bound (length l + (n - 1 - j)) n ltac:(lia)) as M.
  set (q := (length l + (n - 1 - j)) / n) in *.
  apply Nat.le_antisymm.
  - apply nth_error_None. rewrite H. apply nth_error_None. nia.
  - destruct q as [|q]; [lia|]. apply Nat.lt_le_incl in M || idtac.
    assert (nth_error r q <> None); [|now apply nth_error_Some].
    rewrite H. apply nth_error_Some. nia.
Qed.

Lemma job_lattices_ok lattices list_lines n j :
  (1 <= n)%Z -> (0 <= j < n)%Z ->
  exists l, job_lattices lattices list_lines n j = Ok l /\
  forall k, nth_error l k
            = nth_error (lattice_paths lattices list_lines) (Z.to_nat j + k * Z.to_nat n).
Proof.
  intros Hn Hj. unfold job_lattices.
  destruct (Z.ltb_spec n 1); [lia|]. destruct (Z.ltb_spec j 0); [lia|].
  destruct (Z.ltb_spec (n - 1) j); [lia|]. cbn [orb].
  eexists. split; [reflexivity|]. intros k.
  fold (lattice_paths lattices list_lines).
  apply slice_step_nth; lia.
Qed.
Lemma job_lattices_err lattices list_lines n j :
  job_lattices lattices list_lines n j = Err ValueError <-> ~ ((1 <= n)%Z /\ (0 <= j < n)%Z).
Proof.
  unfold job_lattices.
  destruct (Z.ltb_spec n 1); [split; [lia|reflexivity]|]. destruct (Z.ltb_spec j 0); cbn [orb]; [split; [lia|reflexivity]|].
  destruct (Z.ltb_spec (n - 1) j); split; (lia || reflexivity || discriminate).
Qed.

Lemma job_sizes lattices list_lines n j l :
  job_lattices lattices list_lines n j = Ok l ->
  length l = (length (lattice_paths lattices list_lines) + (Z.to_nat n - 1 - Z.to_nat j)) / Z.to_nat n.
Proof.
  unfold job_lattices. destruct (Z.ltb_spec n 1); [discriminate|]. destruct (Z.ltb_spec j 0); cbn [orb]; [discriminate|].
  destruct (Z.ltb_spec (n - 1) j); [discriminate|]. intros E. injection E as <-.
  fold (lattice_paths lattices list_lines). apply slice_step_length; lia.
Qed.

Lemma job_sizes_differ lattices list_lines n j j' l l' :
  job_lattices lattices list_lines n j = Ok l -> job_lattices lattices list_lines n j' = Ok l' ->
  length l <= S (length l').
Proof.
  intros E E'. rewrite (job_sizes _ _ _ _ _ E), (job_sizes _ _ _ _ _ E').
  assert (R : (1 <= n)%Z /\ (0 <= j < n)%Z).
  { destruct (Z_le_dec 1 n), (Z_le_dec 0 j), (Z_lt_dec j n); try tauto; exfalso;
      assert (X : job_lattices lattices list_lines n j = Err ValueError) by (apply job_lattices_err; lia);
      congruence. }
  assert (R' : (1 <= n)%Z /\ (0 <= j' < n)%Z).
  { destruct (Z_le_dec 1 n), (Z_le_dec 0 j'), (Z_lt_dec j' n); try tauto; exfalso;
      assert (X : job_lattices lattices list_lines n j' = Err ValueError) by (apply job_lattices_err; lia);
      congruence. }
  set (m := length (lattice_paths lattices list_lines)).
  apply Nat.le_trans with ((m + (Z.to_nat n - 1)) / Z.to_nat n).
  { apply Nat.div_le_mono; lia. }
  apply Nat.le_trans with (m / Z.to_nat n + 1).
  { rewrite <- (Nat.div_add m 1 (Z.to_nat n)) by lia. apply Nat.div_le_mono; lia. }
  assert (m / Z.to_nat n <= (m + (Z.to_nat n - 1 - Z.to_nat j')) / Z.to_nat n) by (apply Nat.div_le_mono; lia).
  lia.
Qed.

(** Each position belongs to exactly one place of one job. *)
Lemma job_position n p : 1 <= n ->
  p mod n < n /\ p = p mod n + p / n * n /\
  forall j k, j < n -> p = j + k * n -> j = p mod n /\ k = p / n.
Proof.
  intros Hn. split; [apply Nat.mod_upper_bound; lia|]. split.
  { pose proof (Nat.div_mod p n ltac:(lia)). lia. }
  intros j k Hj E. split.
  - apply (Nat.mod_unique _ _ k); lia.
  - apply (Nat.div_unique _ _ _ j); lia.
Qed.

(** ** Concatenation of the jobs *)
Lemma NoDup_concat {A} (ls : list (list A)) :
  (forall l, In l ls -> NoDup l) ->
  (forall i j l l' x, nth_error ls i = Some l -> nth_error ls j = Some l' ->
     In x l -> In x l' -> i = j) ->
  NoDup (concat ls).
Proof.
  induction ls as [|l ls IH]; intros H1 H2; cbn [concat]; [constructor|].
  apply NoDup_app_iff. split; [apply H1; now left|]. split.
  - apply IH; [intros; apply H1; now right|].
    intros i j l1 l2 x Hi Hj Hx Hy. apply Nat.succ_inj. eapply (H2 (S i) (S j)); eassumption.
  - intros x Hx Hc. apply in_concat in Hc. destruct Hc as (l' & Hl' & Hx').
    apply In_nth_error in Hl'. destruct Hl' as [j Hj].
    discriminate (H2 0 (S j) l l' x eq_refl Hj Hx Hx').
Qed.

Lemma nth_map_seq_lt {A} (g : nat -> A) n i : i < n -> nth_error (map g (seq 0 n)) i = Some (g i).
Proof. intros H. rewrite nth_error_map_seq. now destruct (Nat.ltb_spec i n); [|lia]. Qed.

Lemma list_map_nth {A} (d : A) (l : list A) : map (fun i => nth i l d) (seq 0 (length l)) = l.
Proof.
  apply nth_error_ext. intros i. destruct (lt_dec i (length l)) as [L|L].
  - rewrite (nth_map_seq_lt (fun i => nth i l d) _ _ L). symmetry. now apply nth_error_nth'.
  - transitivity (@None A); [|symmetry]; apply nth_error_None; rewrite ?map_length, ?seq_length; lia.
Qed.

Lemma slices_perm {A} (l : list A) n : 1 <= n ->
  Permutation (concat (map (fun j => slice_step (length l) l j n) (seq 0 n))) l.
Proof.
  intros Hn.
  assert (D : l = [] \/ exists d : A, True) by (destruct l as [|d ?]; [now left|right; now exists d]).
  destruct D as [->|[d _]].
  { cbn [length slice_step]. clear. replace (concat _) with (@nil A); [constructor|].
    generalize 0. induction n; intros m; [reflexivity|]. cbn. apply IHn. }
  set (pos := fun j => map (fun k => j + k * n) (seq 0 (length (slice_step (length l) l j n)))).
  assert (E : forall j, slice_step (length l) l j n = map (fun i => nth i l d) (pos j)).
  { intros j. unfold pos. rewrite map_map. apply nth_error_ext. intros k.
    destruct (lt_dec k (length (slice_step (length l) l j n))) as [L|L].
    - rewrite (nth_map_seq_lt (fun k => nth (j + k * n) l d) _ _ L).
      destruct (nth_error (slice_step (length l) l j n) k) as [x|] eqn:Ex.
      + rewrite slice_step_nth in Ex by lia. f_equal. symmetry. now apply nth_error_nth.
      + apply nth_error_None in Ex. lia.
    - transitivity (@None A); [|symmetry]; apply nth_error_None; rewrite ?map_length, ?seq_length; lia. }
  assert (Hpos : forall j p, In p (pos j) -> exists k, p = j + k * n /\ p < length l).
  { intros j p H. unfold pos in H. apply in_map_iff in H. destruct H as (k & <- & H). apply in_seq in H.
    exists k. split; [reflexivity|]. apply nth_error_Some.
    rewrite <- (slice_step_nth l n Hn (length l)) by lia. apply nth_error_Some. lia. }
  assert (P : Permutation (concat (map pos (seq 0 n))) (seq 0 (length l))).
  { apply NoDup_Permutation; [|apply seq_NoDup|].
    - apply NoDup_concat.
      + intros x Hx. apply in_map_iff in Hx. destruct Hx as (j & <- & _). unfold pos.
        apply FinFun.Injective_map_NoDup; [|apply seq_NoDup]. intros k k' H. nia.
      + intros i j x y p Hi Hj Hx Hy.
        assert (Li : i < n) by (rewrite <- (seq_length n 0), <- (map_length pos); apply nth_error_Some; congruence).
        assert (Lj : j < n) by (rewrite <- (seq_length n 0), <- (map_length pos); apply nth_error_Some; congruence).
        rewrite (nth_map_seq_lt pos _ _ Li) in Hi. rewrite (nth_map_seq_lt pos _ _ Lj) in Hj.
        injection Hi as <-. injection Hj as <-.
        apply Hpos in Hx. apply Hpos in Hy. destruct Hx as (k & E1 & _), Hy as (k' & E2 & _).
        destruct (job_position n p Hn) as (_ & _ & U).
        destruct (U i k Li E1), (U j k' Lj E2). congruence.
    - intros p. split; intros H.
      + apply in_concat in H. destruct H as (x & Hx & Hp). apply in_map_iff in Hx.
        destruct Hx as (j & <- & _). apply Hpos in Hp. destruct Hp as (k & _ & L). apply in_seq. lia.
      + apply in_seq in H. apply in_concat. exists (pos (p mod n)).
        destruct (job_position n p Hn) as (Lm & E1 & _). split.
        * apply in_map. apply in_seq. lia.
        * unfold pos. apply in_map_iff. exists (p / n). split; [now symmetry|]. apply in_seq. split; [lia|].
          apply nth_error_Some. rewrite slice_step_nth by lia. rewrite <- E1. apply nth_error_Some. lia. }
  rewrite (map_ext _ _ E). rewrite <- (map_map pos (map (fun i => nth i l d))), <- concat_map.
  eapply Permutation_trans; [apply Permutation_map; exact P|]. now rewrite list_map_nth.
Qed.

Lemma jobs_perm lattices list_lines n : (1 <= n)%Z ->
  exists jobs, mapM (fun j => job_lattices lattices list_lines n (Z.of_nat j)) (seq 0 (Z.to_nat n)) = Ok jobs /\
  Permutation (concat jobs) (lattice_paths lattices list_lines).
Proof.
  intros Hn. set (l := lattice_paths lattices list_lines).
  exists (map (fun j => slice_step (length l) l j (Z.to_nat n)) (seq 0 (Z.to_nat n))). split.
  - apply mapM_ok. intros j Hj. apply in_seq in Hj. unfold job_lattices.
    destruct (Z.ltb_spec n 1); [lia|]. destruct (Z.ltb_spec (Z.of_nat j) 0); [lia|].
    destruct (Z.ltb_spec (n - 1) (Z.of_nat j)); [lia|]. cbn [orb]. now rewrite Nat2Z.id.
  - apply slices_perm. lia.
Qed.

(** ** Archives *)
Lemma archive_acc block : forall acc rest, (forall l, In l block -> strip l <> []) ->
  kaldi_archive (block ++ rest) acc = kaldi_archive rest (acc ++ map strip block).
Proof.
  induction block as [|l block IH]; intros acc rest H; cbn [app map kaldi_archive].
  - now rewrite app_nil_r.
  - destruct (strip l) as [|c s] eqn:E; [destruct (H l); [now left|exact E]|].
    rewrite IH by (intros; apply H; now right). now rewrite <- app_assoc.
Qed.

Lemma archive_ok lines blocks :
  archive lines blocks -> kaldi_archive lines [] = blocks.
Proof.
  induction 1 as [|l ls bs Hl _ IH|b Hb Hl|b l ls bs Hb Hl Hbl _ IH].
  - reflexivity.
  - cbn [kaldi_archive]. now rewrite Hl.
  - rewrite <- (app_nil_r b) at 1. rewrite archive_acc by exact Hl. cbn [app kaldi_archive].
    destruct b; [congruence|reflexivity].
  - rewrite archive_acc by exact Hl. cbn [app kaldi_archive]. rewrite Hbl.
    destruct b; [congruence|]. cbn [map]. now rewrite IH.
Qed.

Lemma archive_exists_gen : forall lines block, (forall l, In l block -> strip l <> []) ->
  exists bs, archive (block ++ lines) bs.
Proof.
  induction lines as [|l lines IH]; intros block H.
  - rewrite app_nil_r. destruct block as [|b block].
    + eexists. constructor.
    + eexists. apply ar_last; [discriminate|exact H].
  - destruct (strip l) as [|c s] eqn:E.
    + destruct (IH [] ltac:(intros ? [])) as [bs Hbs]. destruct block as [|b block].
      * exists bs. now apply ar_blank.
      * eexists. apply ar_block; [discriminate|exact H|exact E|exact Hbs].
    + destruct (IH (block ++ [l])) as [bs Hbs].
      { intros x Hx. apply in_app_or in Hx. destruct Hx as [Hx|[<-|[]]]; [now apply H|congruence]. }
      exists bs. now rewrite <- app_assoc in Hbs.
Qed.
Lemma archive_exists lines : exists bs, archive lines bs.
Proof. apply (archive_exists_gen lines []). intros ? []. Qed.
