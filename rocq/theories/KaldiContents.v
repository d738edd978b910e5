(** Reading a Kaldi lattice gives the lattice that the file describes. *)
From Coq Require Import QArith Qcanon.
From Verif Require Import Base Strings Dict ListLib BaseLib LatticeModel SlfModel KaldiModel LatticeSpec
     SlfSpec KaldiSpec TextProofs VocabBuild GraphProofs SlfProofs SlfContents KaldiProofs.
Local Open Scope nat_scope.

Lemma comma_parts_split s parts : comma_parts s parts -> split_comma s = parts.
Proof.
  intros (Hn & -> & H). induction parts as [|p parts IH]; [congruence|]. clear Hn.
  destruct parts as [|q parts].
  - cbn [join]. apply split_comma_one. intros c Hc ->. apply (H p); [now left|exact Hc].
  - change (join (str ",") (p :: q :: parts)) with (p ++ str "," ++ join (str ",") (q :: parts)).
    rewrite split_comma_cons by (intros c Hc ->; apply (H p); [now left|exact Hc]).
    f_equal. apply IH; [discriminate|]. intros x Hx. apply H. now right.
Qed.
Lemma split_comma_parts s : comma_parts s (split_comma s).
Proof.
  induction s as [|c s (I1 & I2 & I3)]; cbn [split_comma].
  - repeat split; [discriminate|]. intros p [<-|[]] [].
  - destruct (N.eqb_spec c comma) as [->|N].
    + repeat split; [discriminate|..].
      * destruct (split_comma s) as [|q qs]; [congruence|]. rewrite I2 at 1. reflexivity.
      * intros p [<-|Hp]; [intros []|now apply I3].
    + destruct (split_comma s) as [|q qs]; [congruence|]. repeat split; [discriminate|..].
      * rewrite I2. destruct qs; reflexivity.
      * intros p [<-|Hp]; [|apply I3; now right]. intros [->|X]; [now apply N|]. apply (I3 q); [now left|exact X].
Qed.

(** Positions of the elements that satisfy a condition *)
Definition spots {A} (p : A -> bool) (l : list A) : list nat :=
  filter (fun k => match nth_error l k with Some x => p x | None => false end) (seq 0 (length l)).
Lemma spots_snoc {A} (p : A -> bool) ls l : spots p (ls ++ [l]) = spots p ls ++ (if p l then [length ls] else []).
Proof.
  unfold spots. rewrite app_length. cbn [length]. rewrite Nat.add_1_r, seq_S, filter_app. cbn [filter plus].
  rewrite nth_error_app2, Nat.sub_diag by lia. cbn [nth_error]. f_equal.
  apply filter_ext_in. intros k Hk. apply in_seq in Hk. now rewrite nth_error_app1 by lia.
Qed.
Lemma spots_none {A} (p : A -> bool) ls : (forall l, In l ls -> p l = false) -> spots p ls = [].
Proof.
  intros H. apply filter_none. intros k _. destruct (nth_error ls k) as [l|] eqn:E; [|reflexivity].
  apply H. now apply nth_error_In in E.
Qed.
Lemma spots_ext {A} (p q : A -> bool) ls : (forall l, In l ls -> p l = q l) -> spots p ls = spots q ls.
Proof.
  intros H. apply filter_ext. intros k. destruct (nth_error ls k) as [l|] eqn:E; [|reflexivity].
  apply H. now apply nth_error_In in E.
Qed.
Lemma spots_map {A B} (p : B -> bool) (f : A -> B) ls : spots p (map f ls) = spots (fun l => p (f l)) ls.
Proof.
  unfold spots. rewrite map_length. apply filter_ext. intros k. rewrite nth_error_map.
  now destruct (nth_error ls k).
Qed.

Lemma num_states_snoc rs r : num_states (rs ++ [r])
  = Nat.max (Nat.max (num_states rs) (S (r_from r))) (match r_to r with Some (t, _) => S t | None => 0 end).
Proof.
  unfold num_states. rewrite map_app, concat_app, map_app, fold_right_app. cbn [map concat app].
  rewrite app_nil_r. unfold arc_states at 1. 
  assert (X : forall l m, fold_right Nat.max m l = Nat.max (fold_right Nat.max 0 l) m).
  { induction l as [|x l IH]; intros m; cbn [fold_right]; [reflexivity|]. rewrite IH. lia. }
  rewrite X. destruct (r_to r) as [[t w]|]; cbn [map fold_right]; lia.
Qed.
Lemma num_states_bound rs r i : In r rs -> In i (arc_states r) -> i < num_states rs.
Proof.
  intros Hr Hi. unfold num_states.
  assert (H : In (S i) (map S (concat (map arc_states rs)))).
  { apply in_map. apply in_concat. exists (arc_states r). split; [now apply in_map|exact Hi]. }
  revert H. generalize (map S (concat (map arc_states rs))). induction l as [|x l IH]; cbn [fold_right In]; [tauto|].
  intros [->|H]; [lia|]. specialize (IH H). lia.
Qed.

Definition growing := grow_map (mkLattice [] [] 0 None None None).

Section Kaldi.
Variable parse_int : pystr -> result Z.
Variable parse_float : pystr -> result Qc.
Variable table : list (option pystr).

Definition enters (i : nat) (r : arc) : bool := match r_to r with Some (t, _) => t =? i | None => false end.
Definition finals (r : arc) : bool := match r_to r with Some _ => false | None => true end.
Definition arc_conv (r : arc) : link * bool := (arc_link 0 r, finals r).
Definition nodes_fn (rs : list arc) (i : nat) : node :=
  mkNode (spots (fun r => r_from r =? i) rs) (spots (enters i) rs) None false.
Definition kstate (rs : list arc) : kaldi_state :=
  mkKaldi (map (nodes_fn rs) (seq 0 (num_states rs))) (map arc_conv rs) (spots finals rs)
          (match rs with [] => None | r :: _ => Some (Z.of_nat (r_from r)) end).

Lemma nodes_fn_new rs i : num_states rs <= i -> nodes_fn rs i = new_node.
Proof.
  intros H. unfold nodes_fn. rewrite !spots_none; [reflexivity|..].
  - intros r Hr. unfold enters. destruct (r_to r) as [[t w]|] eqn:E; [|reflexivity]. apply Nat.eqb_neq.
    assert (X : t < num_states rs); [|lia]. apply (num_states_bound rs r); [exact Hr|].
    unfold arc_states. rewrite E. right. now left.
  - intros r Hr. apply Nat.eqb_neq. assert (r_from r < num_states rs); [|lia].
    apply (num_states_bound rs r); [exact Hr|]. now left.
Qed.

Lemma read_cost_iff p x : read_cost parse_float p = Ok x <-> cost_logprob parse_float p x.
Proof.
  unfold read_cost, cost_logprob. destruct p as [[|c s]|]; try (split; [intros E; injection E as <-; reflexivity|intros ->; reflexivity]).
  destruct (parse_float (c :: s)) as [y|]; cbn [bind].
  - split; intros E.
    + injection E as <-. now rewrite Qcopp_involutive.
    + injection E as ->. now rewrite Qcopp_involutive.
  - split; discriminate.
Qed.

Lemma word_iff z word :
  (do w <- py_position (length table) z; do word <- py_index table w;
   match word with
   | None => Ok None
   | Some w => if pystr_eq_dec w EPS then Ok None
               else if pystr_eqb w (str "#0") || pystr_eqb w SOS || pystr_eqb w EOS then Err InputError
               else Ok (Some w)
   end) = Ok word <-> word_of table z word.
Proof.
  unfold word_of. split.
  - destruct (py_position (length table) z) as [i|] eqn:Ei; [|discriminate]. cbn [bind].
    apply py_position_spec in Ei. unfold py_index.
    destruct (nth_error table i) as [entry|] eqn:En; [|discriminate]. cbn [bind]. intros E.
    exists i, entry. split; [exact Ei|]. split; [exact En|].
    destruct entry as [w|]; [|now injection E as <-].
    destruct (pystr_eq_dec w EPS) as [->|N]; [left; split; [reflexivity|now injection E as <-]|right].
    destruct (pystr_eqb w (str "#0") || pystr_eqb w SOS || pystr_eqb w EOS) eqn:Eb; [discriminate|]. injection E as <-.
    split; [|reflexivity]. unfold pystr_eqb in Eb. intros [<-|[<-|[<-|[<-|[]]]]]; [now apply N|..]; vm_compute in Eb; discriminate.
  - intros (i & entry & Hp & Hn & Hw). apply py_position_spec in Hp. rewrite Hp. cbn [bind]. unfold py_index. rewrite Hn. cbn [bind].
    destruct entry as [w|]; [|now rewrite Hw]. destruct Hw as [[-> ->]|[N ->]].
    + destruct (pystr_eq_dec (str "<eps>") EPS); [reflexivity|]. exfalso. now apply n.
    + destruct (pystr_eq_dec w EPS) as [->|_]; [exfalso; apply N; now left|].
      unfold pystr_eqb.
      destruct (pystr_eq_dec w (str "#0")) as [->|_]; [exfalso; apply N; right; now left|].
      destruct (pystr_eq_dec w SOS) as [->|_]; [exfalso; apply N; right; right; now left|].
      destruct (pystr_eq_dec w EOS) as [->|_]; [exfalso; apply N; right; right; right; now left|]. reflexivity.
Qed.

(** What is done after the parts of a line have been found *)
Definition kline_core (st : kaldi_state) (from : pystr) (to : option (Z * Z)) (weight : pystr) : result kaldi_state :=
    do state_from <- parse_int from;
    let weight_parts := split_comma weight in
    do graph_logprob <- read_cost parse_float (nth_error weight_parts 0);
    do ac_logprob <- read_cost parse_float (nth_error weight_parts 1);
    let transitions := match nth_error weight_parts 2 with Some t => t | None => [] end in
    let initial := match kg_initial st with Some i => Some i | None => Some state_from end in
    let nodes := grow (kg_nodes st) state_from in
    let k := length (kg_links st) in
    match to with
    | Some (state_to, word) =>
      let nodes := grow nodes state_to in
      do s <- py_position (length nodes) state_from;
      do e <- py_position (length nodes) state_to;
      do w <- py_position (length table) word;
      do word <- py_index table w;
      do word <- match word with
                 | None => Ok None
                 | Some w =>
                   if pystr_eq_dec w EPS then Ok None
                   else if pystr_eqb w (str "#0") || pystr_eqb w SOS || pystr_eqb w EOS
                        then Err InputError
                        else Ok (Some w)
                 end;
      Ok (mkKaldi (add_in (add_out nodes s k) e k)
                  (kg_links st ++ [(mkLink s e word (Some ac_logprob) (Some graph_logprob) transitions, false)])
                  (kg_final_in st) initial)
    | None =>
      do s <- py_position (length nodes) state_from;
      Ok (mkKaldi (add_out nodes s k)
                  (kg_links st ++ [(mkLink s 0 None (Some ac_logprob) (Some graph_logprob) transitions, true)])
                  (kg_final_in st ++ [k]) initial)
    end.

Lemma kinit rs f lm to ac tr :
  match kg_initial (kstate rs) with Some i => Some i | None => Some (Z.of_nat f) end
  = kg_initial (kstate (rs ++ [mkArc f to lm ac tr])).
Proof. destruct rs; reflexivity. Qed.

Lemma core_final rs s weight z st' : parse_int s = Ok z -> (0 <= z)%Z ->
  kline_core (kstate rs) s None weight = Ok st' <->
  exists lm ac tr, weight_of parse_float weight lm ac tr /\
    st' = kstate (rs ++ [mkArc (Z.to_nat z) None lm ac tr]).
Proof.
  intros Es Hz. unfold kline_core. rewrite Es. cbn [bind].
  assert (K : forall lm ac, let tr := match nth_error (split_comma weight) 2 with Some t => t | None => [] end in
    (do s0 <- py_position (length (grow (kg_nodes (kstate rs)) z)) z;
     Ok (mkKaldi (add_out (grow (kg_nodes (kstate rs)) z) s0 (length (kg_links (kstate rs))))
                  (kg_links (kstate rs) ++ [(mkLink s0 0 None (Some ac) (Some lm) tr, true)])
                  (kg_final_in (kstate rs) ++ [length (kg_links (kstate rs))])
                  (match kg_initial (kstate rs) with Some i => Some i | None => Some z end)))
     = Ok (kstate (rs ++ [mkArc (Z.to_nat z) None lm ac tr]))).
  { intros lm ac tr. set (n := Z.to_nat z). replace z with (Z.of_nat n) by (unfold n; lia).
    rewrite (kinit rs n lm None ac tr). cbn [kstate kg_nodes kg_links kg_final_in].
    rewrite (growing (nodes_fn rs)) by apply nodes_fn_new.
    rewrite map_length, seq_length, py_position_of_nat by lia. cbn [bind].
    rewrite add_out_map by lia. f_equal. unfold kstate at 2. f_equal.
    - rewrite num_states_snoc. cbn [r_from r_to]. rewrite Nat.max_0_r. apply map_ext. intros i. unfold nodes_fn.
      cbn [n_out n_in n_time n_final]. rewrite !spots_snoc. cbn [r_from enters r_to]. rewrite app_nil_r, map_length.
      reflexivity.
    - rewrite map_app. reflexivity.
    - rewrite spots_snoc, map_length. reflexivity. }
  split.
  - destruct (read_cost parse_float (nth_error (split_comma weight) 0)) as [lm|] eqn:E1; [|discriminate]. cbn [bind].
    destruct (read_cost parse_float (nth_error (split_comma weight) 1)) as [ac|] eqn:E2; [|discriminate]. cbn [bind].
    cbv zeta. cbv zeta in K. rewrite K. intros E.
    exists lm, ac, (match nth_error (split_comma weight) 2 with Some t => t | None => [] end). split; [|congruence].
    exists (split_comma weight). split; [apply split_comma_parts|]. split; [now apply read_cost_iff|].
    split; [now apply read_cost_iff|]. destruct (split_comma weight) as [|? [|? [|? ?]]]; reflexivity.
  - intros (lm & ac & tr & (parts & Hp & H1 & H2 & ->) & ->). apply comma_parts_split in Hp. subst parts.
    apply read_cost_iff in H1. apply read_cost_iff in H2. rewrite H1. cbn [bind]. rewrite H2. cbn [bind].
    cbv zeta. cbv zeta in K. rewrite K. do 4 f_equal. destruct (split_comma weight) as [|? [|? [|? ?]]]; reflexivity.
Qed.

Lemma core_link rs s weight z zt zw st' : parse_int s = Ok z -> (0 <= z)%Z -> (0 <= zt)%Z ->
  kline_core (kstate rs) s (Some (zt, zw)) weight = Ok st' <->
  exists word lm ac tr, word_of table zw word /\ weight_of parse_float weight lm ac tr /\
    st' = kstate (rs ++ [mkArc (Z.to_nat z) (Some (Z.to_nat zt, word)) lm ac tr]).
Proof.
  intros Es Hz Ht. unfold kline_core. rewrite Es. cbn [bind].
  set (n := Z.to_nat z). replace z with (Z.of_nat n) by (unfold n; lia).
  set (t := Z.to_nat zt). replace zt with (Z.of_nat t) by (unfold t; lia).
  assert (K : forall lm ac tr word,
     mkKaldi (add_in (add_out (map (nodes_fn rs) (seq 0 (Nat.max (Nat.max (num_states rs) (S n)) (S t)))) n (length (map arc_conv rs))) t (length (map arc_conv rs)))
         (map arc_conv rs ++ [(mkLink n t word (Some ac) (Some lm) tr, false)])
         (spots finals rs)
         (match kg_initial (kstate rs) with Some i => Some i | None => Some (Z.of_nat n) end)
     = kstate (rs ++ [mkArc n (Some (t, word)) lm ac tr])).
  { intros lm ac tr word. rewrite (kinit rs n lm (Some (t, word)) ac tr).
    rewrite add_out_map by lia. rewrite add_in_map by lia. unfold kstate at 2. f_equal.
    - rewrite num_states_snoc. cbn [r_from r_to]. apply map_ext. intros i. unfold nodes_fn.
      cbn [n_out n_in n_time n_final]. rewrite !spots_snoc. cbn [r_from enters r_to]. rewrite map_length. reflexivity.
    - rewrite map_app. reflexivity.
    - rewrite spots_snoc. cbn [finals r_to]. now rewrite app_nil_r. }
  cbv zeta. 
  split.
  - destruct (read_cost parse_float (nth_error (split_comma weight) 0)) as [lm|] eqn:E1; [|discriminate]. cbn [bind].
    destruct (read_cost parse_float (nth_error (split_comma weight) 1)) as [ac|] eqn:E2; [|discriminate]. cbn [bind].
    change (kg_nodes (kstate rs)) with (map (nodes_fn rs) (seq 0 (num_states rs))).
    change (kg_links (kstate rs)) with (map arc_conv rs). change (kg_final_in (kstate rs)) with (spots finals rs).
    rewrite (growing (nodes_fn rs)) by apply nodes_fn_new.
    rewrite growing by (intros i Hi; apply nodes_fn_new; lia).
    rewrite map_length, seq_length, !py_position_of_nat by lia. cbn [bind].
    pose proof (fun x => proj1 (word_iff zw x)) as W.
    destruct (py_position (length table) zw) as [p|]; [|discriminate]. cbn [bind] in *.
    destruct (py_index table p) as [e|]; [|discriminate]. cbn [bind] in *.
    match goal with |- (do word <- ?X; _) = _ -> _ => destruct X as [word|] end; [|discriminate]. cbn [bind].
    intros E. exists word, lm, ac, (match nth_error (split_comma weight) 2 with Some t => t | None => [] end).
    split; [now apply W|]. split; [|rewrite <- K; congruence].
    exists (split_comma weight). split; [apply split_comma_parts|]. split; [now apply read_cost_iff|].
    split; [now apply read_cost_iff|]. destruct (split_comma weight) as [|? [|? [|? ?]]]; reflexivity.
  - intros (word & lm & ac & tr & Hw & (parts & Hp & H1 & H2 & ->) & ->). apply comma_parts_split in Hp. subst parts.
    apply read_cost_iff in H1. apply read_cost_iff in H2. rewrite H1. cbn [bind]. rewrite H2. cbn [bind].
    change (kg_nodes (kstate rs)) with (map (nodes_fn rs) (seq 0 (num_states rs))).
    change (kg_links (kstate rs)) with (map arc_conv rs). change (kg_final_in (kstate rs)) with (spots finals rs).
    rewrite (growing (nodes_fn rs)) by apply nodes_fn_new.
    rewrite growing by (intros i Hi; apply nodes_fn_new; lia).
    rewrite map_length, seq_length, !py_position_of_nat by lia. cbn [bind].
    apply word_iff in Hw.
    destruct (py_position (length table) zw) as [p|]; [|discriminate]. cbn [bind] in *.
    destruct (py_index table p) as [e|]; [|discriminate]. cbn [bind] in *. rewrite Hw. cbn [bind].
    rewrite K. do 4 f_equal. destruct (split_comma weight) as [|? [|? [|? ?]]]; reflexivity.
Qed.

Lemma read_line_core st line : read_kaldi_line parse_int parse_float table st line =
  match split line with
  | [] => Ok st
  | [s] => kline_core st s None []
  | [s; weight] => kline_core st s None weight
  | [s; t; w; weight] => do t <- parse_int t; do w <- parse_int w; kline_core st s (Some (t, w)) weight
  | _ => Err InputError
  end.
Proof.
  unfold read_kaldi_line. rewrite split_strip. destruct (split line) as [|s [|x [|y [|z [|? ?]]]]]; try reflexivity.
  cbn [bind]. destruct (parse_int x) as [t|]; [|reflexivity]. cbn [bind]. destruct (parse_int y); reflexivity.
Qed.

Lemma weight_empty lm ac tr : weight_of parse_float [] lm ac tr <-> lm = 0%Qc /\ ac = 0%Qc /\ tr = [].
Proof.
  split.
  - intros (parts & Hp & H1 & H2 & ->). apply comma_parts_split in Hp. subst parts. auto.
  - intros (-> & -> & ->). exists [[]]. split; [|cbn; auto]. exact (split_comma_parts []).
Qed.

Definition line_nonneg (line : pystr) : Prop := no_negative_states parse_int [line].

(** A line that is not blank *)
Lemma read_line_iff rs line st' : line_nonneg line -> split line <> [] ->
  read_kaldi_line parse_int parse_float table (kstate rs) line = Ok st' <->
  exists r, line_arc parse_int parse_float table line r /\ st' = kstate (rs ++ [r]).
Proof.
  intros NN Hb. rewrite read_line_core. unfold line_nonneg, no_negative_states in NN.
  destruct (split line) as [|s [|x [|y [|w [|? ?]]]]] eqn:El; [congruence|..].
  - destruct (parse_int s) as [z|] eqn:Es.
    + assert (Hz : (0 <= z)%Z) by (apply (NN line); [now left|left; exists s, []; auto]).
      rewrite (core_final rs s [] z st' Es Hz). split.
      * intros (lm & ac & tr & Hw & ->). apply weight_empty in Hw. destruct Hw as (-> & -> & ->).
        eexists. split; [|reflexivity]. apply (la_final _ _ _ _ s); [exact El|]. rewrite Es. f_equal. lia.
      * intros (r & Hr & ->). inversion Hr; try congruence; subst. exists 0%Qc, 0%Qc, []. split; [now apply weight_empty|].
        do 3 f_equal. f_equal. assert (s0 = s) by congruence. subst s0. assert (Z.of_nat from = z) by congruence. lia.
    + split.
      * unfold kline_core. rewrite Es. discriminate.
      * intros (r & Hr & _). inversion Hr; congruence.
  - destruct (parse_int s) as [z|] eqn:Es.
    + assert (Hz : (0 <= z)%Z) by (apply (NN line); [now left|left; exists s, [x]; auto]).
      rewrite (core_final rs s x z st' Es Hz). split.
      * intros (lm & ac & tr & Hw & ->). 
        eexists. split; [|reflexivity]. apply (la_weight _ _ _ _ s x); [exact El| |exact Hw]. rewrite Es. f_equal. lia.
      * intros (r & Hr & ->). inversion Hr; try congruence; subst.
        assert (s0 = s) by congruence. assert (weight = x) by congruence. subst s0 weight.
        exists lm, ac, transitions. split; [assumption|].
        do 3 f_equal. f_equal. assert (Z.of_nat from = z) by congruence. lia.
    + split.
      * unfold kline_core. rewrite Es. discriminate.
      * intros (r & Hr & _). inversion Hr; congruence.
  - split; [discriminate|]. intros (r & Hr & _). inversion Hr; congruence.
  - destruct (parse_int s) as [z|] eqn:Es.
    + assert (Hz : (0 <= z)%Z) by (apply (NN line); [now left|left; exists s, [x; y; w]; auto]).
      destruct (parse_int x) as [zt|] eqn:Ex; cbn [bind].
      2: { split; [discriminate|]. intros (r & Hr & _). inversion Hr; congruence. }
      destruct (parse_int y) as [zw|] eqn:Ey; cbn [bind].
      2: { split; [discriminate|]. intros (r & Hr & _). inversion Hr; congruence. }
      assert (Ht : (0 <= zt)%Z) by (apply (NN line); [now left|right; exists s, x, y, w; auto]).
      rewrite (core_link rs s w z zt zw st' Es Hz Ht). split.
      * intros (word & lm & ac & tr & Hw & Hx & ->). 
        eexists. split; [|reflexivity]. apply (la_link _ _ _ _ s x y w _ _ zw); try assumption.
        -- rewrite Es. f_equal. lia.
        -- rewrite Ex. f_equal. lia.
      * intros (r & Hr & ->). inversion Hr; try congruence; subst.
        assert (s0 = s) by congruence. assert (t = x) by congruence. assert (w0 = y) by congruence. assert (weight = w) by congruence.
        subst s0 t w0 weight. exists word, lm, ac, transitions.
        assert (z0 = zw) by congruence. subst z0. split; [assumption|]. split; [assumption|].
        assert (Z.of_nat from = z) by congruence. assert (Z.of_nat to = zt) by congruence. subst z zt. now rewrite !Nat2Z.id.
    + split.
      * destruct (parse_int x); cbn [bind]; [|discriminate]. destruct (parse_int y); cbn [bind]; [|discriminate].
        unfold kline_core. rewrite Es. discriminate.
      * intros (r & Hr & _). inversion Hr; congruence.
  - split; [discriminate|]. intros (r & Hr & _). inversion Hr; congruence.
Qed.

Lemma nonneg_cons l ls : no_negative_states parse_int (l :: ls) -> line_nonneg l /\ no_negative_states parse_int ls.
Proof.
  unfold line_nonneg, no_negative_states. intros H. split; intros line z Hl; apply (H line); [destruct Hl as [->|[]]; now left|now right].
Qed.

Lemma blank_split line : split line = [] <-> strip line = [].
Proof.
  split; intros H.
  - destruct (strip line) as [|c s] eqn:E; [reflexivity|]. exfalso.
    unfold strip in E. pose proof (split_rstrip (lstrip line)) as X.
    assert (Y : split (strip line) = []) by now rewrite split_strip. unfold strip in Y. rewrite E in Y.
    destruct (is_space c) eqn:Ec.
    + unfold rstrip in E.
      assert (Z : exists t, lstrip line = c :: t).
      { destruct (rstrip_decomp (lstrip line)) as (sp & D & _). exists (s ++ sp).
        rewrite D at 1. unfold rstrip. rewrite E. reflexivity. }
      destruct Z as (t & Z). revert Z. clear - Ec. induction line as [|d line IH]; [discriminate|]. cbn [lstrip].
      destruct (is_space d) eqn:Ed; [exact IH|]. intros Z. injection Z as -> _. congruence.
    + unfold split in Y. cbn [split_aux] in Y. rewrite Ec in Y.
      assert (Z : forall s cur, cur <> [] -> split_aux cur s <> []).
      { clear. induction s as [|d s IH]; intros cur Hc; cbn [split_aux]; [destruct cur; congruence|].
        destruct (is_space d); [destruct cur; congruence|]. apply IH. discriminate. }
      now apply (Z s [c]).
  - rewrite <- split_strip, H. reflexivity.
Qed.

Lemma read_lines_iff lines : forall rs st', no_negative_states parse_int lines ->
  foldM (read_kaldi_line parse_int parse_float table) lines (kstate rs) = Ok st' <->
  exists rs', Forall2 (line_arc parse_int parse_float table) (filter (fun l => negb (pystr_eqb (strip l) [])) lines) rs' /\
    st' = kstate (rs ++ rs').
Proof.
  induction lines as [|l lines IH]; intros rs st' NN; cbn [foldM filter].
  - split.
    + intros E. injection E as <-. exists []. rewrite app_nil_r. split; [constructor|reflexivity].
    + intros (rs' & F & ->). inversion F. now rewrite app_nil_r.
  - apply nonneg_cons in NN. destruct NN as [N1 N2].
    unfold pystr_eqb at 1. destruct (pystr_eq_dec (strip l) []) as [Eb|Eb]; cbn [negb].
    + rewrite read_line_core. rewrite (proj2 (blank_split l) Eb). cbn [bind]. now apply IH.
    + assert (Hs : split l <> []) by (intros X; now apply Eb, blank_split).
      destruct (read_kaldi_line parse_int parse_float table (kstate rs) l) as [st1|] eqn:E1; cbn [bind].
      * apply (read_line_iff _ _ _ N1 Hs) in E1. destruct E1 as (r & Hr & ->).
        rewrite (IH _ _ N2). split.
        -- intros (rs' & F & ->). exists (r :: rs'). split; [now constructor|]. now rewrite <- app_assoc.
        -- intros (rs' & F & ->). inversion F as [|? r' ? rs2 Hr' F2]; subst. exists rs2. split; [exact F2|].
           assert (E : kstate (rs ++ [r']) = kstate (rs ++ [r])).
           { assert (X : forall y, line_arc parse_int parse_float table l y -> 
               read_kaldi_line parse_int parse_float table (kstate rs) l = Ok (kstate (rs ++ [y])))
               by (intros y Hy; apply (read_line_iff _ _ _ N1 Hs); now exists y).
             pose proof (X _ Hr). pose proof (X _ Hr'). congruence. }
           assert (Er : r' = r).
           { unfold kstate in E.
             assert (E2 : map arc_conv (rs ++ [r']) = map arc_conv (rs ++ [r])) by congruence.
             assert (E3 : spots finals (rs ++ [r']) = spots finals (rs ++ [r])) by congruence.
             rewrite !map_app in E2. apply app_inv_head in E2. cbn [map] in E2. unfold arc_conv in E2.
             assert (E4 : arc_link 0 r' = arc_link 0 r) by congruence. assert (E5 : finals r' = finals r) by congruence.
             destruct r as [a b c d e], r' as [a' b' c' d' e']. unfold arc_link, finals in *. cbn in *.
             destruct b as [[? ?]|], b' as [[? ?]|]; try discriminate; congruence. }
           subst r'. now rewrite <- app_assoc.
      * split; [discriminate|]. intros (rs' & F & _). inversion F as [|? r' ? rs2 Hr' F2]; subst.
        assert (X : read_kaldi_line parse_int parse_float table (kstate rs) l = Ok (kstate (rs ++ [r'])))
          by (apply (read_line_iff _ _ _ N1 Hs); now exists r'). congruence.
Qed.

(** The lattice of arcs *)
Definition arcs_lattice (first : pystr) (rs : list arc) (r0 : arc) : lattice :=
  mkLattice (map (nodes_fn rs) (seq 0 (num_states rs)) ++ [mkNode [] (spots finals rs) None true])
            (map (arc_link (num_states rs)) rs) (r_from r0) (Some (strip first)) None None.

Lemma read_kaldi_iff lines a : no_negative_states parse_int (tl lines) ->
  read_kaldi parse_int parse_float lines table = Ok a <->
  exists first rest rs r0, lines = first :: rest /\
    Forall2 (line_arc parse_int parse_float table) (filter (fun l => negb (pystr_eqb (strip l) [])) rest) rs /\
    nth_error rs 0 = Some r0 /\ a = arcs_lattice first rs r0.
Proof.
  intros NN. destruct lines as [|first rest]; cbn [read_kaldi tl] in *.
  { split; [discriminate|]. intros (f & r & _ & _ & E & _). discriminate. }
  change (mkKaldi [] [] [] None) with (kstate []).
  pose proof (fun st => read_lines_iff rest [] st NN) as R. cbn [app] in R.
  assert (K : forall rs r0, nth_error rs 0 = Some r0 ->
    match kg_initial (kstate rs) with
    | None => Err InputError
    | Some i =>
      do initial <- py_position (length (kg_nodes (kstate rs))) i;
      let final_id := length (kg_nodes (kstate rs)) in
      let links := map (fun lf => let l : link := fst lf in
                          if snd lf : bool
                          then mkLink (k_start l) final_id (k_word l) (k_ac l) (k_lm l) (k_transitions l)
                          else l) (kg_links (kstate rs)) in
      Ok (mkLattice (kg_nodes (kstate rs) ++ [mkNode [] (kg_final_in (kstate rs)) None true])
                    links initial (Some (strip first)) None None)
    end = Ok (arcs_lattice first rs r0)).
  { intros rs r0 H0. destruct rs as [|r rs]; [discriminate|]. injection H0 as ->.
    cbn [kstate kg_initial kg_nodes kg_links kg_final_in].
    rewrite map_length, seq_length. rewrite py_position_of_nat.
    2: { apply (num_states_bound _ r0); [now left|now left]. }
    cbn [bind]. unfold arcs_lattice. f_equal. f_equal. rewrite map_map. apply map_ext. intros x.
    unfold arc_conv, finals, arc_link. cbn [fst snd]. destruct (r_to x) as [[t w]|]; reflexivity. }
  split.
  - destruct (foldM _ rest (kstate [])) as [st|] eqn:E; [|discriminate]. cbn [bind].
    destruct (proj1 (R st) eq_refl) as (rs & F & ->).
    destruct rs as [|r0 rs].
    + cbn [kstate kg_initial]. discriminate.
    + intros X. assert (Y : Ok a = Ok (arcs_lattice first (r0 :: rs) r0)) by exact (eq_trans (eq_sym X) (K (r0 :: rs) r0 eq_refl)).
      exists first, rest, (r0 :: rs), r0. repeat split; [exact F|]. congruence.
  - intros (f' & rest' & rs & r0 & E & F & H0 & ->). injection E as <- <-.
    rewrite (proj2 (R (kstate rs))) by (exists rs; auto). cbn [bind]. exact (K rs r0 H0).
Qed.

Lemma arcs_lattice_ok first rs r0 : nth_error rs 0 = Some r0 -> lattice_ok (arcs_lattice first rs r0).
Proof.
  intros H0. assert (In0 : In r0 rs) by now apply nth_error_In in H0.
  set (f := num_states rs).
  assert (L : length (map (nodes_fn rs) (seq 0 f)) = f) by now rewrite map_length, seq_length.
  assert (Bf : forall r, In r rs -> r_from r < f) by (intros r Hr; apply (num_states_bound rs r _ Hr); now left).
  assert (Bt : forall r t w, In r rs -> r_to r = Some (t, w) -> t < f).
  { intros r t w Hr E. apply (num_states_bound rs r _ Hr). unfold arc_states. rewrite E. right. now left. }
  assert (St : forall r, k_start (arc_link f r) = r_from r) by (intros r; unfold arc_link; destruct (r_to r) as [[? ?]|]; reflexivity).
  assert (En : forall r, k_end (arc_link f r) = match r_to r with Some (t, _) => t | None => f end)
    by (intros r; unfold arc_link; destruct (r_to r) as [[? ?]|]; reflexivity).
  split; cbn [arcs_lattice a_nodes a_links a_initial]; fold f.
  2: { rewrite app_length, L. cbn [length]. specialize (Bf r0 In0). lia. }
  constructor.
  - intros l Hl. rewrite app_length, L. cbn [length]. apply in_map_iff in Hl. destruct Hl as (r & <- & Hr).
    rewrite St, En. specialize (Bf r Hr). destruct (r_to r) as [[t w]|] eqn:Er; [|lia]. specialize (Bt r t w Hr Er). lia.
  - intros i nd Hi. change (links_from (map (arc_link f) rs) i) with (spots (fun l => k_start l =? i) (map (arc_link f) rs)).
    rewrite spots_map. destruct (lt_dec i f) as [Li|Li].
    + rewrite nth_error_app1 in Hi by lia. rewrite nth_error_map_seq in Hi. destruct (i <? f); [|discriminate]. injection Hi as <-.
      cbn [nodes_fn n_out]. apply spots_ext. intros r Hr. now rewrite St.
    + rewrite nth_error_app2 in Hi by lia. rewrite L in Hi.
      destruct (i - f) as [|d] eqn:Ed; [|destruct d; discriminate]. injection Hi as <-. cbn [n_out].
      symmetry. apply spots_none. intros r Hr. rewrite St. apply Nat.eqb_neq. specialize (Bf r Hr). lia.
  - intros i nd Hi. change (links_to (map (arc_link f) rs) i) with (spots (fun l => k_end l =? i) (map (arc_link f) rs)).
    rewrite spots_map. destruct (lt_dec i f) as [Li|Li].
    + rewrite nth_error_app1 in Hi by lia. rewrite nth_error_map_seq in Hi. destruct (i <? f); [|discriminate]. injection Hi as <-.
      cbn [nodes_fn n_in]. apply spots_ext. intros r Hr. rewrite En. unfold enters. destruct (r_to r) as [[t w]|]; [reflexivity|].
      symmetry. apply Nat.eqb_neq. lia.
    + rewrite nth_error_app2 in Hi by lia. rewrite L in Hi.
      destruct (i - f) as [|d] eqn:Ed; [|destruct d; discriminate]. injection Hi as <-. cbn [n_in].
      apply spots_ext. intros r Hr. rewrite En. unfold finals. destruct (r_to r) as [[t w]|] eqn:Er.
      * symmetry. apply Nat.eqb_neq. specialize (Bt r t w Hr Er). lia.
      * symmetry. apply Nat.eqb_eq. lia.
Qed.

Theorem kaldi_contents_iff lines a : no_negative_states parse_int (tl lines) ->
  read_kaldi parse_int parse_float lines table = Ok a <-> kaldi_contents parse_int parse_float lines table a.
Proof.
  intros NN. rewrite (read_kaldi_iff lines a NN). split.
  - intros (first & rest & rs & r0 & E & F & H0 & ->). exists first, rest, rs, r0.
    set (f := num_states rs).
    assert (L : length (map (nodes_fn rs) (seq 0 f)) = f) by now rewrite map_length, seq_length.
    repeat (split; [first [assumption|reflexivity]|]). cbn [arcs_lattice a_nodes]. fold f.
    split; [rewrite app_length, L; cbn [length]; lia|]. split; [|split; [reflexivity|now apply arcs_lattice_ok]].
    intros i n Hi. destruct (lt_dec i f) as [Li|Li].
    + rewrite nth_error_app1 in Hi by lia. rewrite nth_error_map_seq in Hi. destruct (i <? f); [|discriminate]. injection Hi as <-.
      cbn [nodes_fn n_time n_final]. split; [reflexivity|]. split; [discriminate|lia].
    + rewrite nth_error_app2 in Hi by lia. rewrite L in Hi.
      destruct (i - f) as [|d] eqn:Ed; [|destruct d; discriminate]. injection Hi as <-. cbn [n_time n_final].
      split; [reflexivity|]. split; [lia|reflexivity].
  - intros (first & rest & rs & r0 & E & F & H0 & A1 & A2 & A3 & A4 & A5 & A6 & A7 & A8).
    exists first, rest, rs, r0. split; [exact E|]. split; [exact F|]. split; [exact H0|].
    pose proof (arcs_lattice_ok first rs r0 H0) as B8. destruct A8 as [[_ O1 O2] _]. destruct B8 as [[_ P1 P2] _].
    destruct a as [ns ls ini utt lms wip]. cbn [a_nodes a_links a_initial a_utterance a_lm_scale a_wi_penalty] in *. subst.
    unfold arcs_lattice. f_equal. cbn [arcs_lattice a_nodes a_links] in P1, P2.
    set (f := num_states rs) in *.
    assert (L : length (map (nodes_fn rs) (seq 0 f)) = f) by now rewrite map_length, seq_length.
    apply nth_error_ext. intros i.
    destruct (nth_error ns i) as [nd|] eqn:Ei.
    + assert (Hi : i < length ns) by (apply nth_error_Some; congruence).
      destruct (nth_error (map (nodes_fn rs) (seq 0 f) ++ [mkNode [] (spots finals rs) None true]) i) as [nd'|] eqn:Ei'.
      2: { apply nth_error_None in Ei'. rewrite app_length, L in Ei'. cbn [length] in Ei'. lia. }
      f_equal. specialize (O1 i nd Ei). specialize (O2 i nd Ei). specialize (P1 i nd' Ei'). specialize (P2 i nd' Ei').
      destruct (A6 i nd Ei) as [T1 T2].
      assert (T' : n_time nd' = None /\ (n_final nd' = true <-> i = f)).
      { destruct (lt_dec i f) as [Li|Li].
        - rewrite nth_error_app1 in Ei' by lia. rewrite nth_error_map_seq in Ei'. destruct (i <? f); [|discriminate]. injection Ei' as <-.
          cbn [nodes_fn n_time n_final]. split; [reflexivity|]. split; [discriminate|lia].
        - rewrite nth_error_app2 in Ei' by lia. rewrite L in Ei'.
          destruct (i - f) as [|d] eqn:Ed; [|destruct d; discriminate]. injection Ei' as <-. cbn [n_time n_final].
          split; [reflexivity|]. split; [lia|reflexivity]. }
      destruct T' as [T3 T4]. assert (T5 : n_final nd = n_final nd').
      { destruct (n_final nd), (n_final nd'); try reflexivity; [|]; exfalso.
        - assert (false = true) by (apply T4, T2; reflexivity). discriminate.
        - assert (false = true) by (apply T2, T4; reflexivity). discriminate. }
      destruct nd, nd'. cbn in *. congruence.
    + symmetry. apply nth_error_None. apply nth_error_None in Ei. rewrite app_length, L. cbn [length]. lia.
Qed.
End Kaldi.

(** ** Word lists *)
Section Words.
Variable parse_int : pystr -> result Z.

Lemma word_list_iff lines :
  (exists d, read_kaldi_vocabulary parse_int lines = Ok d) <-> word_list_ok parse_int lines.
Proof.
  unfold read_kaldi_vocabulary. generalize (@nil (pystr * Z)) as d0. induction lines as [|l lines IH]; intros d0; cbn [foldM].
  - split; [intros _ l []|]. intros _. now exists d0.
  - assert (Step : word_list_ok parse_int (l :: lines) <->
        (strip l = [] \/ exists w z, word_line parse_int l w z) /\ word_list_ok parse_int lines).
    { split; [intros H; split; [apply H; now left|intros x Hx; apply H; now right]|].
      intros [H1 H2] x [<-|Hx]; [exact H1|now apply H2]. }
    rewrite Step. destruct (split l) as [|w [|s [|? ?]]] eqn:El; cbn [bind].
    + rewrite IH. apply blank_split in El. tauto.
    + split; [intros [d E]; discriminate|]. intros [[X|(w' & z & s & X & _)] _]; [apply blank_split in X; congruence|congruence].
    + destruct (parse_int s) as [z|] eqn:Ez; cbn [bind].
      * rewrite IH. split; [intros H; split; [right; exists w, z, s; auto|exact H]|tauto].
      * split; [intros [d E]; discriminate|]. intros [[X|(w' & z & s' & X & Y)] _]; [apply blank_split in X; congruence|congruence].
    + split; [intros [d E]; discriminate|]. intros [[X|(w' & z & s' & X & _)] _]; [apply blank_split in X; congruence|congruence].
Qed.

Lemma word_list_get lines d : read_kaldi_vocabulary parse_int lines = Ok d ->
  NoDup (dict_keys d) /\ forall w z, dict_get pystr_eq_dec d w = Some z <-> word_list_id parse_int lines w z.
Proof.
  unfold read_kaldi_vocabulary. intros E.
  assert (G : forall lines d0 d, foldM (fun result line =>
           match split line with
           | [] => Ok result
           | [word; id] => do id <- parse_int id; Ok (dict_set pystr_eq_dec result word id)
           | _ => Err InputError
           end) lines d0 = Ok d -> NoDup (dict_keys d0) ->
     NoDup (dict_keys d) /\ forall w z, dict_get pystr_eq_dec d w = Some z <->
       word_list_id parse_int lines w z \/
       (dict_get pystr_eq_dec d0 w = Some z /\ forall l z', In l lines -> ~ word_line parse_int l w z')).
  { clear. induction lines as [|l lines IH]; intros d0 d E N; cbn [foldM] in E.
    - injection E as <-. split; [exact N|]. intros w z. split; [intros H; right; split; [exact H|intros l z' []]|].
      intros [(b & l & a & X & _)|[H _]]; [destruct b; discriminate|exact H].
    - assert (Skip : forall w z, word_list_id parse_int (l :: lines) w z <->
         word_list_id parse_int lines w z \/ (word_line parse_int l w z /\ forall l' z', In l' lines -> ~ word_line parse_int l' w z')).
      { intros w z. split.
        - intros ([|x b] & l' & a & X & H1 & H2).
          + injection X as <- <-. right. auto.
          + injection X as <- ->. left. exists b, l', a. auto.
        - intros [(b & l' & a & -> & H)|[H1 H2]].
          + exists (l :: b), l', a. auto.
          + exists [], l, lines. auto. }
      assert (Blank : split l = [] \/ exists w s z, split l = [w; s] /\ parse_int s = Ok z).
      { destruct (split l) as [|w [|s [|? ?]]]; try discriminate; [now left|right].
        destruct (parse_int s) as [z|] eqn:Es; [|discriminate]. now exists w, s, z. }
      destruct Blank as [Bl|(w0 & s0 & z0 & Bl & Ez)]; rewrite Bl in E; cbn [bind] in E.
      + destruct (IH _ _ E N) as [N' H]. split; [exact N'|]. intros w z. rewrite H, Skip.
        assert (NB : forall w z, ~ word_line parse_int l w z) by (intros w' z' (s & X & _); congruence).
        split.
        * intros [X|[X1 X2]]; [left; now left|right; split; [exact X1|]]. intros l' z' [<-|Hl]; [apply NB|now apply X2].
        * intros [[X|[X _]]|[X1 X2]]; [now left|exfalso; now apply (NB w z)|right; split; [exact X1|]].
          intros l' z' Hl. apply X2. now right.
      + rewrite Ez in E. cbn [bind] in E.
        destruct (IH _ _ E (dict_set_nodup _ _ _ _ N)) as [N' H]. split; [exact N'|]. intros w z. rewrite H, Skip.
        assert (WL : forall w z, word_line parse_int l w z <-> w = w0 /\ z = z0).
        { intros w' z'. split; [intros (s & X & Y); split; congruence|intros [-> ->]; now exists s0]. }
        destruct (pystr_eq_dec w w0) as [->|Nw].
        * rewrite dict_get_set_same. split.
          -- intros [X|[X1 X2]]; [left; now left|]. injection X1 as <-. left. right. split; [now apply WL|exact X2].
          -- intros [[X|[X1 X2]]|[X1 X2]]; [now left|right|].
             ++ apply WL in X1. destruct X1 as [_ ->]. split; [reflexivity|exact X2].
             ++ exfalso. apply (X2 l z0); [now left|now apply WL].
        * rewrite dict_get_set_other by congruence. split.
          -- intros [X|[X1 X2]]; [left; now left|right]. split; [exact X1|]. intros l' z' [<-|Hl]; [|now apply X2].
             intros X. apply WL in X. now apply Nw.
          -- intros [[X|[X1 X2]]|[X1 X2]]; [now left| |right].
             ++ apply WL in X1. exfalso. now apply Nw.
             ++ split; [exact X1|]. intros l' z' Hl. apply X2. now right. }
  destruct (G lines [] d E (NoDup_nil _)) as [N H]. split; [exact N|].
  intros w z. rewrite H. cbn [dict_get]. split; [intros [X|[X _]]; [exact X|discriminate]|now left].
Qed.
End Words.
