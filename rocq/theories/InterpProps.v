(** C75. Interpolating the probabilities of two language models. *)
From Coq Require Import Reals Lra.
From Verif Require Import Base InterpModel InterpSpec InterpProofs.
Local Open Scope R_scope.

(** Linear interpolation gives the logarithm of the weighted sum of the probabilities,
    also when one of them is zero or too small for numpy.exp(), whichever numbers those
    are. *)
Theorem C75_linear : forall underflow weight a b, 0 <= weight <= 1 -> log_number a -> log_number b ->
  exists r, interpolate_linear underflow a b weight = Ok r /\ log_number r /\
    prob r = weight * prob a + (1 - weight) * prob b.
Proof. intros u w a b Hw Ha Hb. now apply linear_ok. Qed.
Print Assumptions C75_linear.

(** With the weight one or zero the result is one of the log probabilities, whatever the
    other is. *)
Theorem C75_weight_one_zero : forall underflow a b, log_number a -> log_number b ->
  interpolate_linear underflow a b 1 = Ok a /\ interpolate_linear underflow a b 0 = Ok b /\
  interpolate_loglinear a b 1 (1 - 1) = Ok a /\ interpolate_loglinear a b 0 (1 - 0) = Ok b.
Proof.
  intros u a b Ha Hb.
  destruct (linear_ok u 1 ltac:(lra) a b Ha Hb) as (r1 & E1 & L1 & P1).
  destruct (linear_ok u 0 ltac:(lra) a b Ha Hb) as (r2 & E2 & L2 & P2).
  destruct (loglinear_parts a b 1 (1 - 1) Ha Hb ltac:(lra) ltac:(lra)) as (r3 & E3 & L3 & P3).
  destruct (loglinear_parts a b 0 (1 - 0) Ha Hb ltac:(lra) ltac:(lra)) as (r4 & E4 & L4 & P4).
  assert (forall p, power p 0 = 1) as Z by (intros p; unfold power; destruct (Req_EM_T 0 0); tauto).
  assert (forall x, log_number x -> power (prob x) 1 = prob x) as O.
  { intros x Hx. unfold power. destruct (Req_EM_T 1 0); [lra|].
    destruct (Req_EM_T (prob x) 0) as [E|E]; [now symmetry|].
    apply Rpower_1. pose proof (prob_nonneg x). lra. }
  replace (1 - 1) with 0 in * by ring. replace (1 - 0) with 1 in * by ring.
  rewrite Z, O in P3 by assumption. rewrite Z, O in P4 by assumption.
  rewrite E1, E2, E3, E4. repeat split; f_equal; apply prob_inj; try assumption; lra.
Qed.
Print Assumptions C75_weight_one_zero.

(** Linear interpolation of two distributions is a distribution. *)
Theorem C75_distribution : forall underflow weight p q, 0 <= weight <= 1 ->
  distribution p -> distribution q -> length p = length q ->
  exists r, mapM (fun x => interpolate_linear underflow (fst x) (snd x) weight) (combine p q) = Ok r /\
    length r = length p /\ distribution r.
Proof.
  intros u w p q Hw [Lp Tp] [Lq Tq] L.
  destruct (linear_all u w Hw p q Lp Lq L) as (r & E & F & G & T).
  exists r. split; [exact E|]. split; [exact G|]. split; [exact F|]. rewrite T, Tp, Tq. ring.
Qed.
Print Assumptions C75_distribution.

(** The result is between the two log probabilities, and grows with them. *)
Theorem C75_between : forall underflow weight a b r, 0 <= weight <= 1 -> log_number a -> log_number b ->
  interpolate_linear underflow a b weight = Ok r -> below a b -> below a r /\ below r b.
Proof.
  intros u w a b r Hw Ha Hb E H.
  destruct (linear_ok u w Hw a b Ha Hb) as (r' & E' & L & P). rewrite E in E'. injection E' as <-.
  apply below_prob in H; try assumption.
  rewrite !below_prob by assumption. rewrite P.
  pose proof (Rmult_le_compat_l w _ _ ltac:(lra) H).
  pose proof (Rmult_le_compat_l (1 - w) _ _ ltac:(lra) H). lra.
Qed.
Print Assumptions C75_between.

Theorem C75_monotone : forall underflow weight a b a' b' r r', 0 <= weight <= 1 ->
  log_number a -> log_number b -> log_number a' -> log_number b' -> below a a' -> below b b' ->
  interpolate_linear underflow a b weight = Ok r -> interpolate_linear underflow a' b' weight = Ok r' ->
  below r r'.
Proof.
  intros u w a b a' b' r r' Hw Ha Hb Ha' Hb' H1 H2 E E'.
  destruct (linear_ok u w Hw a b Ha Hb) as (s & F & L & P). rewrite E in F. injection F as <-.
  destruct (linear_ok u w Hw a' b' Ha' Hb') as (s & F & L' & P'). rewrite E' in F. injection F as <-.
  apply below_prob in H1; try assumption. apply below_prob in H2; try assumption.
  rewrite below_prob by assumption. rewrite P, P'.
  pose proof (Rmult_le_compat_l w _ _ ltac:(lra) H1).
  pose proof (Rmult_le_compat_l (1 - w) _ _ ltac:(lra) H2). lra.
Qed.
Print Assumptions C75_monotone.

(** The other interpolation gives the logarithm of the weighted geometric mean, which is
    never more than linear interpolation gives. *)
Theorem C75_loglinear : forall underflow weight a b, 0 <= weight <= 1 -> log_number a -> log_number b ->
  exists r s, interpolate_loglinear a b weight (1 - weight) = Ok r /\
    interpolate_linear underflow a b weight = Ok s /\
    log_number r /\ prob r = power (prob a) weight * power (prob b) (1 - weight) /\ below r s.
Proof.
  intros u w a b Hw Ha Hb.
  destruct (loglinear_parts a b w (1 - w) Ha Hb ltac:(lra) ltac:(lra)) as (r & E & L & P).
  destruct (linear_ok u w Hw a b Ha Hb) as (s & F & L' & P').
  exists r, s. repeat split; try assumption. apply below_prob; try assumption.
  rewrite P, P'. destruct a as [x| | |], b as [y| | |]; cbn in Ha, Hb; try tauto; cbn [prob].
  - rewrite !(power_exp _ _ eq_refl), <- exp_plus. apply convex; lra.
  - rewrite power_zero, (power_exp _ _ eq_refl). destruct (Req_EM_T (1 - w) 0) as [Z|Z].
    + replace w with 1 by lra. rewrite !Rmult_1_l. lra.
    + rewrite !Rmult_0_r, Rplus_0_r. apply Rmult_le_pos; [lra|]. left. apply exp_pos.
  - rewrite power_zero, (power_exp _ _ eq_refl). destruct (Req_EM_T w 0) as [Z|Z].
    + rewrite Z, Rminus_0_r, !Rmult_1_l. lra.
    + rewrite !Rmult_0_l, Rmult_0_r, Rplus_0_l. apply Rmult_le_pos; [lra|]. left. apply exp_pos.
  - rewrite !power_zero. destruct (Req_EM_T w 0), (Req_EM_T (1 - w) 0); lra.
Qed.
Print Assumptions C75_loglinear.

(** It is not a distribution when the models differ. *)
Theorem C75_loglinear_distribution_refuted :
  exists weight p q r, 0 <= weight <= 1 /\ distribution p /\ distribution q /\ length p = length q /\
    mapM (fun x => interpolate_loglinear (fst x) (snd x) weight (1 - weight)) (combine p q) = Ok r /\
    ~ distribution r.
Proof.
  exists (1/2), [Real 0; MinusInfinity], [MinusInfinity; Real 0], [MinusInfinity; MinusInfinity].
  split; [lra|]. split.
  { split; [repeat constructor|]. unfold total. cbn. rewrite exp_0. ring. }
  split.
  { split; [repeat constructor|]. unfold total. cbn. rewrite exp_0. ring. }
  split; [reflexivity|]. split.
  { cbn [combine mapM fst snd]. unfold interpolate_loglinear. cbn [times].
    destruct (Req_EM_T (1/2) 0); [lra|]. destruct (Req_EM_T (1 - 1/2) 0); [lra|].
    destruct (Rlt_dec (1/2) 0); [lra|]. destruct (Rlt_dec (1 - 1/2) 0); [lra|]. reflexivity. }
  intros [_ T]. unfold total in T. cbn in T. lra.
Qed.
Print Assumptions C75_loglinear_distribution_refuted.

(** A weight that is not between zero and one, which the command line accepts, can give
    NaN, and when exp() underflows an exception. *)
Theorem C75_weight_refuted :
  exists weight a b, log_number a /\ log_number b /\
    interpolate_linear (fun _ => false) a b weight = Ok NaN /\
    interpolate_linear (fun _ => true) a b weight = Err ValueError.
Proof.
  exists 3, (Real 0), (Real (ln 2)). split; [exact I|]. split; [exact I|].
  unfold interpolate_linear, numpy_exp, positive, exponential, times, plus, numpy_log, decimal_ln.
  rewrite exp_0, exp_ln by lra.
  destruct (Rlt_dec 0 1); [|lra]. destruct (Rlt_dec 0 2); [|lra].
  destruct (Rlt_dec 0 0); [lra|]. cbn [andb].
  destruct (Req_EM_T 3 0); [lra|]. destruct (Req_EM_T (1 - 3) 0); [lra|].
  split.
  - destruct (Rlt_dec 0 (3 * 1 + (1 - 3) * 2)); [lra|]. destruct (Req_EM_T (3 * 1 + (1 - 3) * 2) 0); [lra|reflexivity].
  - destruct (Rlt_dec 0 (0 + 3 * 1 + (1 - 3) * 2)); [lra|].
    destruct (Req_EM_T (0 + 3 * 1 + (1 - 3) * 2) 0); [lra|reflexivity].
Qed.
Print Assumptions C75_weight_refuted.

(** With log-linear interpolation the difference of the scores of two hypotheses of the
    same number of words does not change when the same path is added to both, so that
    recombination may forget the worse. *)
Theorem C75_loglinear_order : forall underflow weight scale penalty n ac1 ac2 lat1 lat2 nn1 nn2 e,
  let k1 := mkScores n ac1 (Real lat1) (Real nn1) in
  let k2 := mkScores n ac2 (Real lat2) (Real nn2) in
  exists t1 t2 t1' t2',
    total_logprob underflow false weight scale penalty k1 = Ok (Real t1) /\
    total_logprob underflow false weight scale penalty k2 = Ok (Real t2) /\
    total_logprob underflow false weight scale penalty (extend k1 e) = Ok (Real t1') /\
    total_logprob underflow false weight scale penalty (extend k2 e) = Ok (Real t2') /\
    t1' - t2' = t1 - t2.
Proof.
  intros u w s p n ac1 ac2 lat1 lat2 nn1 nn2 e k1 k2.
  assert (forall m ac lat nn,
    total_logprob u false w s p (mkScores m ac (Real lat) (Real nn)) =
    Ok (Real (ac + (s * (w * nn + (1 - w) * lat) + p * (INR m - 1))))) as T.
  { intros m ac lat nn. unfold total_logprob, interpolate_loglinear. cbn [k_nn k_lat k_ac k_words times].
    destruct (Req_EM_T w 0) as [Z|Z], (Req_EM_T (1 - w) 0) as [Y|Y]; cbn [plus bind times]; do 2 f_equal.
    - lra.
    - rewrite Z. ring.
    - replace (1 - w) with 0. ring.
    - ring. }
  unfold k1, k2, extend. cbn [k_nn k_lat k_ac k_words plus]. rewrite !T.
  do 4 eexists. repeat split. ring.
Qed.
Print Assumptions C75_loglinear_order.

(** With linear interpolation it can change the order, even when both hypotheses have the
    same words and the same network probability. Then recombination forgets the hypothesis
    that would have become the best. *)
Theorem C75_linear_order_refuted :
  exists weight scale penalty n nn ac1 ac2 lat1 lat2 e,
  let k1 := mkScores n ac1 (Real lat1) (Real nn) in
  let k2 := mkScores n ac2 (Real lat2) (Real nn) in
  0 < weight < 1 /\ 0 < scale /\
  forall underflow, exists t1 t2 t1' t2',
    total_logprob underflow true weight scale penalty k1 = Ok (Real t1) /\
    total_logprob underflow true weight scale penalty k2 = Ok (Real t2) /\
    total_logprob underflow true weight scale penalty (extend k1 e) = Ok (Real t1') /\
    total_logprob underflow true weight scale penalty (extend k2 e) = Ok (Real t2') /\
    t2 < t1 /\ t1' < t2'.
Proof.
  exists (1/2), 1, 0, 1%nat, 0, 0, (- ln (5/2)), 0, (ln 3), (mkRest 1 0 0 (- ln 4)).
  intros k1 k2. split; [lra|]. split; [lra|]. intros u.
  assert (forall m ac lat nn,
    total_logprob u true (1/2) 1 0 (mkScores m ac (Real lat) (Real nn)) =
    Ok (Real (ac + ln (1/2 * exp nn + 1/2 * exp lat)))) as T.
  { intros m ac lat nn. unfold total_logprob. cbn [k_nn k_lat k_ac k_words].
    destruct (linear_ok u (1/2) ltac:(lra) (Real nn) (Real lat) I I) as (r & E & L & P).
    rewrite E. cbn [bind]. cbn [prob] in P.
    pose proof (exp_pos nn). pose proof (exp_pos lat).
    destruct r as [x| | |]; cbn in L; try tauto; cbn [prob] in P; [|lra].
    cbn [times plus]. do 3 f_equal. replace (1/2 * exp nn + 1/2 * exp lat) with (exp x) by (rewrite P; lra).
    rewrite ln_exp. ring. }
  assert (exp (- ln 4) = 1/4) as E4 by (rewrite exp_Ropp, exp_ln by lra; lra).
  unfold k1, k2, extend. cbn [k_nn k_lat k_ac k_words plus r_words r_ac r_lat r_nn]. rewrite !T.
  do 4 eexists. split; [reflexivity|]. split; [reflexivity|]. split; [reflexivity|]. split; [reflexivity|].
  rewrite !Rplus_0_l, !Rplus_0_r, E4, exp_0, exp_ln by lra.
  split.
  - replace (1/2 * 1 + 1/2 * 1) with 1 by lra. rewrite ln_1.
    replace (1/2 * 1 + 1/2 * 3) with 2 by lra. pose proof (ln_increasing 2 (5/2) ltac:(lra) ltac:(lra)). lra.
  - pose proof (ln_increasing (5/2 * (1/2 * (1/4) + 1/2 * 1)) (1/2 * (1/4) + 1/2 * 3) ltac:(lra) ltac:(lra)) as H.
    rewrite ln_mult in H by lra. lra.
Qed.
Print Assumptions C75_linear_order_refuted.

(** A distribution over two words, one of which has no probability *)
Example C75_example :
  let p := [Real (- ln 2); Real (- ln 2)] in
  let q := [Real 0; MinusInfinity] in
  distribution p /\ distribution q /\ length p = length q /\ 0 <= 1/2 <= 1 /\
  interpolate_linear (fun _ => false) (Real (- ln 2)) MinusInfinity (1/2) = Ok (Real (ln (1/4))).
Proof.
  assert (exp (- ln 2) = 1/2) as E by (rewrite exp_Ropp, exp_ln by lra; lra).
  intros p q. split; [|split; [|split; [reflexivity|split; [lra|]]]].
  - split; [repeat constructor|]. unfold total. cbn. rewrite E. lra.
  - split; [repeat constructor|]. unfold total. cbn. rewrite exp_0. lra.
  - destruct (linear_ok (fun _ => false) (1/2) ltac:(lra) (Real (- ln 2)) MinusInfinity I I) as (r & F & L & P).
    rewrite F. f_equal. apply prob_inj; [exact L|exact I|]. rewrite P. cbn. rewrite E, exp_ln by lra. lra.
Qed.
