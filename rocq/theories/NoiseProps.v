(** C57: the sampling-based training objectives. *)
From Coq Require Import Reals Lra Lia Bool.
From Verif Require Import Base CostModel CostSpec CostProofs.
Open Scope R_scope.

(** Noise-contrastive estimation: the probability that a word came from the network
    rather than from the noise distribution, when the network gives it the score p and
    the noise distribution gives it the probability q *)
Definition from_model (p q : R) : R := p / (p + q).
Definition from_noise (p q : R) : R := q / (p + q).
Definition sum (l : list R) : R := fold_right Rplus 0 l.

Lemma softplus_noise a c : 0 < c -> - softplus (a - ln c) = ln (from_noise (exp a) c).
Proof.
  intros H. unfold softplus, from_noise. assert (P := exp_pos a).
  replace (exp (a - ln c)) with (exp a / c).
  2:{ unfold Rminus. rewrite exp_plus, exp_Ropp, exp_ln by exact H. reflexivity. }
  rewrite <- ln_Rinv.
  2:{ assert (0 < exp a / c) by (apply Rdiv_lt_0_compat; lra). lra. }
  f_equal. field. split; lra.
Qed.
Lemma softplus_model a c : 0 < c -> - softplus (- (a - ln c)) = ln (from_model (exp a) c).
Proof.
  intros H. unfold softplus, from_model. assert (P := exp_pos a).
  replace (exp (- (a - ln c))) with (c / exp a).
  2:{ replace (- (a - ln c)) with (ln c + - a) by lra. rewrite exp_plus, exp_Ropp, exp_ln by exact H. reflexivity. }
  rewrite <- ln_Rinv.
  2:{ assert (0 < c / exp a) by (apply Rdiv_lt_0_compat; lra). lra. }
  f_equal. field. split; lra.
Qed.

(** The objective is the log probability of telling the target from the noise, for every
    number of samples: the target is from the model and the samples are from noise. *)
Theorem C57_nce epsilon s q samples :
  0 < epsilon -> 0 <= q -> Forall (fun x => 0 <= snd x) samples ->
  nce_logprob epsilon (s, q) samples =
    ln (from_model (exp s) (q + epsilon)) + sum (map (fun x => ln (from_noise (exp (fst x)) (snd x + epsilon))) samples).
Proof.
  intros E Q F. unfold nce_logprob. cbn [fst snd]. rewrite softplus_model by lra. f_equal. unfold sum. f_equal.
  apply map_ext_in. intros [a c] H. rewrite Forall_forall in F. specialize (F _ H). cbn [fst snd] in *. apply softplus_noise. lra.
Qed.
Print Assumptions C57_nce.

Lemma softplus_pos x : 0 < softplus x.
Proof. unfold softplus. rewrite <- ln_1. assert (P := exp_pos x). apply ln_increasing; lra. Qed.
Lemma softplus_incr x y : x < y -> softplus x < softplus y.
Proof. intros H. unfold softplus. assert (P := exp_pos x). assert (I := exp_increasing x y H). apply ln_increasing; lra. Qed.

(** It is negative, so the cost is positive. *)
Theorem C57_nce_negative epsilon target samples : nce_logprob epsilon target samples < 0.
Proof.
  unfold nce_logprob. assert (P := softplus_pos (- (fst target - ln (snd target + epsilon)))).
  assert (Q : fold_right Rplus 0 (map (fun s => - softplus (fst s - ln (snd s + epsilon))) samples) <= 0).
  { induction samples as [|x t IH]; cbn [map fold_right]; [lra|]. assert (P' := softplus_pos (fst x - ln (snd x + epsilon))). lra. }
  lra.
Qed.
Print Assumptions C57_nce_negative.

(** A greater score of the target makes the objective better; a greater score of a noise
    sample makes it worse. *)
Theorem C57_nce_target epsilon s s' q samples :
  s < s' -> nce_logprob epsilon (s, q) samples < nce_logprob epsilon (s', q) samples.
Proof.
  intros H. unfold nce_logprob. cbn [fst snd].
  assert (I := softplus_incr (- (s' - ln (q + epsilon))) (- (s - ln (q + epsilon))) ltac:(lra)). lra.
Qed.
Print Assumptions C57_nce_target.

Theorem C57_nce_sample epsilon target before s s' q after :
  s < s' -> nce_logprob epsilon target (before ++ (s', q) :: after) < nce_logprob epsilon target (before ++ (s, q) :: after).
Proof.
  intros H. unfold nce_logprob. apply Rplus_lt_compat_l. rewrite !map_app. cbn [map fst snd].
  assert (I := softplus_incr (s - ln (q + epsilon)) (s' - ln (q + epsilon)) ltac:(lra)).
  induction before as [|x t IH]; cbn [map app fold_right]; lra.
Qed.
Print Assumptions C57_nce_sample.

(** BlackOut. [shares scores l]: the positive numbers [l] sum to one and are in the
    proportions of exp(score) / prior. *)
Definition shares (scores : list (R * R)) (l : list R) : Prop :=
  sum l = 1 /\ Forall (fun x => 0 < x) l /\
  exists z, 0 < z /\ l = map (fun s => exp (fst s) / snd s / z) scores.

Lemma sum_div l z : sum (map (fun x => x / z) l) = sum l / z.
Proof. unfold sum. induction l as [|x l IH]; cbn [map fold_right]; [lra|]. rewrite IH. lra. Qed.
Lemma sum_pos l : Forall (fun x => 0 < x) l -> 0 <= sum l.
Proof. unfold sum. induction 1; cbn [fold_right]; lra. Qed.
Lemma in_sum l x : Forall (fun x => 0 < x) l -> In x l -> x <= sum l.
Proof.
  unfold sum. induction l as [|y l IH]; [intros _ []|]. intros F [->|H]; inversion F; subst; cbn [fold_right].
  - assert (P := sum_pos l ltac:(assumption)). unfold sum in P. lra.
  - specialize (IH ltac:(assumption) H). lra.
Qed.
Lemma ext_sum_fin l : ext_sum (map Fin l) = Fin (sum l).
Proof. induction l as [|x l IH]; [reflexivity|]. cbn [map ext_sum fold_right]. fold (ext_sum (map Fin l)). rewrite IH. reflexivity. Qed.
Lemma priors_nonzero target samples :
  Forall (fun s => 0 < snd s) (target :: samples) ->
  existsb (fun s : R * R => if Req_EM_T (snd s) 0 then true else false) (target :: samples) = false.
Proof.
  intros F. destruct (existsb _ _) eqn:E; [|reflexivity]. apply existsb_exists in E. destruct E as (x & I & E).
  rewrite Forall_forall in F. specialize (F x I). destruct (Req_EM_T (snd x) 0); [lra|discriminate].
Qed.

(** With positive priors the objective is a number: the log of the target's share plus
    the logs of one minus each sample's share, each increased by epsilon. *)
Theorem C57_blackout epsilon target samples :
  0 < epsilon -> Forall (fun s => 0 < snd s) (target :: samples) ->
  exists t l, shares (target :: samples) (t :: l) /\ Forall (fun x => x < 1) l /\ t <= 1 /\
    blackout_logprob epsilon target samples = Fin (ln (t + epsilon) + sum (map (fun x => ln (1 - x + epsilon)) l)).
Proof.
  intros E F. unfold blackout_logprob. rewrite (priors_nonzero target samples F).
  set (tw := exp (fst target) / snd target). set (sw := map (fun s => exp (fst s) / snd s) samples).
  fold (sum sw). set (z := tw + sum sw).
  assert (Pw : forall s : R * R, 0 < snd s -> 0 < exp (fst s) / snd s) by (intros s H; apply Rdiv_lt_0_compat; [apply exp_pos|exact H]).
  inversion F as [|? ? Ft Fs]; subst.
  assert (Pt : 0 < tw) by (apply Pw; exact Ft).
  assert (Ps : Forall (fun x => 0 < x) sw).
  { apply Forall_forall. intros x H. apply in_map_iff in H. destruct H as (s & <- & I). rewrite Forall_forall in Fs. apply Pw, Fs, I. }
  assert (Pz := sum_pos sw Ps). assert (Pz' : 0 < z) by (unfold z; lra).
  assert (Iz : 0 < / z) by (apply Rinv_0_lt_compat; exact Pz').
  assert (Hl : Forall (fun x => 0 < x < 1) (map (fun w => w / z) sw)).
  { apply Forall_forall. intros x H. apply in_map_iff in H. destruct H as (w & <- & I). rewrite Forall_forall in Ps.
    assert (A := Ps w I). assert (B := in_sum sw w ltac:(apply Forall_forall; exact Ps) I).
    split; [apply Rdiv_lt_0_compat; lra|]. apply (Rmult_lt_reg_r z); [exact Pz'|]. unfold Rdiv. rewrite Rmult_assoc, Rinv_l by lra. unfold z. lra. }
  assert (Ht : 0 < tw / z <= 1).
  { split; [apply Rdiv_lt_0_compat; lra|]. apply (Rmult_le_reg_r z); [exact Pz'|]. unfold Rdiv. rewrite Rmult_assoc, Rinv_l by lra. unfold z. lra. }
  exists (tw / z), (map (fun w => w / z) sw). split; [|split; [|split]].
  - split; [|split].
    + unfold sum at 1. cbn [fold_right]. fold (sum (map (fun w => w / z) sw)). rewrite sum_div. unfold z. field. unfold z in Pz'. lra.
    + constructor; [lra|]. eapply Forall_impl; [|exact Hl]. cbv beta. intros; lra.
    + exists z. split; [exact Pz'|]. cbn [map]. unfold sw. rewrite map_map. reflexivity.
  - eapply Forall_impl; [|exact Hl]. cbv beta. intros; lra.
  - lra.
  - unfold ext_ln at 1. destruct (Rlt_dec 0 (tw / z + epsilon)); [|lra].
    rewrite !map_map.
    rewrite (map_ext_in (fun x => ext_ln (1 - x / z + epsilon)) (fun x => Fin (ln (1 - x / z + epsilon)))).
    2:{ intros w I. rewrite Forall_forall in Hl. specialize (Hl (w / z) (in_map (fun w => w / z) sw w I)). unfold ext_ln.
        destruct (Rlt_dec 0 (1 - w / z + epsilon)); [reflexivity|lra]. }
    rewrite <- (map_map (fun x => ln (1 - x / z + epsilon)) Fin), ext_sum_fin. reflexivity.
Qed.
Print Assumptions C57_blackout.

(** A zero prior probability, of the target or of a sample, makes the objective NaN.
    (The expectation that the stability term prevents this is false.) *)
Theorem C57_blackout_zero_refuted epsilon target samples :
  Exists (fun s => snd s = 0) (target :: samples) -> blackout_logprob epsilon target samples = NaN.
Proof.
  intros H. unfold blackout_logprob.
  assert (E : existsb (fun s : R * R => if Req_EM_T (snd s) 0 then true else false) (target :: samples) = true).
  { apply existsb_exists. apply Exists_exists in H. destruct H as (x & I & E). exists x. split; [exact I|].
    destruct (Req_EM_T (snd x) 0); [reflexivity|contradiction]. }
  rewrite E. reflexivity.
Qed.
Print Assumptions C57_blackout_zero_refuted.

Example C57_nce_example : nce_logprob (1/2) (0, 1/2) [(0, 1/2)] = ln (1/2) + ln (1/2).
Proof.
  rewrite C57_nce by (first [lra | repeat constructor; cbn [snd]; lra]). cbn [map fst snd sum fold_right]. unfold sum, from_model, from_noise.
  cbn [fold_right]. rewrite exp_0. replace (1 / (1 + (1/2 + 1/2))) with (1/2) by field. replace ((1/2 + 1/2) / (1 + (1/2 + 1/2))) with (1/2) by field. lra.
Qed.
Example C57_blackout_example : exists x, blackout_logprob (1/2) (0, 1/2) [(1, 1/4); (2, 1/4)] = Fin x.
Proof.
  destruct (C57_blackout (1/2) (0, 1/2) [(1, 1/4); (2, 1/4)]) as (t & l & _ & _ & _ & E); [lra|repeat constructor; cbn [snd]; lra|].
  eexists; exact E.
Qed.
