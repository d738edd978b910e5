From Coq Require Import Reals Lra.
From Verif Require Import Base InterpModel InterpSpec.
Local Open Scope R_scope.

Lemma prob_nonneg x : 0 <= prob x.
Proof. destruct x; cbn; try lra. left. apply exp_pos. Qed.

Lemma prob_inj x y : log_number x -> log_number y -> prob x = prob y -> x = y.
Proof.
  destruct x as [a| | |], y as [b| | |]; cbn; try tauto; intros _ _ E.
  - f_equal. now apply exp_inv.
  - pose proof (exp_pos a). lra.
  - pose proof (exp_pos b). lra.
Qed.

Lemma below_prob x y : log_number x -> log_number y -> below x y <-> prob x <= prob y.
Proof.
  destruct x as [a| | |], y as [b| | |]; cbn; try tauto; intros _ _.
  - split; intros H.
    + destruct H as [H|H]; [left; now apply exp_increasing|right; now f_equal].
    + destruct (Rle_lt_dec a b) as [L|L]; [exact L|]. apply exp_increasing in L. lra.
  - pose proof (exp_pos a). split; [tauto|lra].
  - pose proof (exp_pos b). split; [lra|tauto].
  - split; [lra|tauto].
Qed.

(** log of a number that is not negative *)
Lemma log_exists s : 0 <= s ->
  exists r, numpy_log (Real s) = r /\ decimal_ln (Real s) = Ok r /\ log_number r /\ prob r = s.
Proof.
  intros H. cbn. destruct (Rlt_dec 0 s) as [L|L].
  - exists (Real (ln s)). repeat split. cbn. now apply exp_ln.
  - destruct (Req_EM_T s 0) as [E|E]; [|lra].
    exists MinusInfinity. repeat split. cbn. symmetry. exact E.
Qed.

Lemma exponential_log x : log_number x -> exponential x = Real (prob x).
Proof. destruct x; cbn; tauto. Qed.

Lemma numpy_exp_positive u x : log_number x -> positive (numpy_exp u x) = true ->
  numpy_exp u x = Real (prob x).
Proof.
  destruct x as [a| | |]; cbn; try tauto.
  destruct (u a); [|tauto]. cbn. destruct (Rlt_dec 0 0); [lra|discriminate].
Qed.

Section Linear.
Variables (u : R -> bool) (w : R).

(** The two ways to compute agree for any weight when the sum is not negative. *)
Lemma linear_sum a b : log_number a -> log_number b -> 0 <= w * prob a + (1 - w) * prob b ->
  exists r, interpolate_linear u a b w = Ok r /\ log_number r /\ prob r = w * prob a + (1 - w) * prob b.
Proof.
  intros Ha Hb Hs.
  destruct (log_exists _ Hs) as (r & E1 & E2 & L & P). exists r. split; [|tauto].
  unfold interpolate_linear.
  destruct (positive (numpy_exp u a) && positive (numpy_exp u b)) eqn:E.
  - apply andb_prop in E. destruct E as [Ea Eb].
    rewrite (numpy_exp_positive u a Ha Ea), (numpy_exp_positive u b Hb Eb).
    cbn [times plus]. now rewrite E1.
  - rewrite (exponential_log a Ha), (exponential_log b Hb). rewrite <- E2. f_equal.
    destruct (Req_EM_T w 0) as [W|W], (Req_EM_T (1 - w) 0) as [V|V]; cbn [times plus]; f_equal.
    + lra.
    + rewrite W. lra.
    + replace (1 - w) with 0. ring.
    + ring.
Qed.

Hypothesis Hw : 0 <= w <= 1.

Lemma linear_ok a b : log_number a -> log_number b ->
  exists r, interpolate_linear u a b w = Ok r /\ log_number r /\ prob r = w * prob a + (1 - w) * prob b.
Proof.
  intros Ha Hb. apply linear_sum; try assumption.
  pose proof (Rmult_le_pos w (prob a) ltac:(lra) (prob_nonneg a)).
  pose proof (Rmult_le_pos (1 - w) (prob b) ltac:(lra) (prob_nonneg b)). lra.
Qed.

Lemma linear_all p q : Forall log_number p -> Forall log_number q -> length p = length q ->
  exists r, mapM (fun x => interpolate_linear u (fst x) (snd x) w) (combine p q) = Ok r /\
    Forall log_number r /\ length r = length p /\
    total (map prob r) = w * total (map prob p) + (1 - w) * total (map prob q).
Proof.
  revert q. induction p as [|a p IH]; intros [|b q] Hp Hq L; try discriminate L.
  - exists []. cbn. repeat split; try constructor. unfold total; cbn; ring.
  - inversion Hp as [|x1 x2 Ha Hp']; subst. inversion Hq as [|x1 x2 Hb Hq']; subst.
    injection L as L. destruct (IH q Hp' Hq' L) as (r & E & F & G & T).
    destruct (linear_ok a b Ha Hb) as (s & E1 & L1 & P1).
    exists (s :: r). cbn [combine mapM fst snd]. rewrite E1. cbn [bind]. rewrite E. cbn [bind].
    repeat split; [now constructor|cbn; lia|].
    unfold total in *. cbn [map fold_right]. rewrite P1, T. ring.
Qed.

Lemma convex a b : exp (w * a + (1 - w) * b) <= w * exp a + (1 - w) * exp b.
Proof.
  set (m := w * a + (1 - w) * b).
  assert (Ea : exp a = exp m * exp (a - m)) by (rewrite <- exp_plus; f_equal; ring).
  assert (Eb : exp b = exp m * exp (b - m)) by (rewrite <- exp_plus; f_equal; ring).
  pose proof (exp_ineq1_le (a - m)) as Ha. pose proof (exp_ineq1_le (b - m)) as Hb.
  rewrite Ea, Eb.
  pose proof (Rmult_le_compat_l w _ _ ltac:(lra) Ha) as Ia.
  pose proof (Rmult_le_compat_l (1 - w) _ _ ltac:(lra) Hb) as Ib.
  pose proof (exp_pos m) as Hm.
  assert (1 <= w * exp (a - m) + (1 - w) * exp (b - m)) as H.
  { assert (w * (1 + (a - m)) + (1 - w) * (1 + (b - m)) = 1) as E by (unfold m; ring). lra. }
  apply (Rmult_le_compat_l (exp m)) in H; [|lra]. lra.
Qed.

End Linear.

Lemma power_exp p a : p = exp a -> forall v, power p v = exp (v * a).
Proof.
  intros -> v. unfold power. destruct (Req_EM_T v 0) as [->|_]; [rewrite Rmult_0_l, exp_0; reflexivity|].
  pose proof (exp_pos a). destruct (Req_EM_T (exp a) 0); [lra|].
  unfold Rpower. now rewrite ln_exp.
Qed.

Lemma power_zero v : power 0 v = if Req_EM_T v 0 then 1 else 0.
Proof. unfold power. destruct (Req_EM_T v 0); [reflexivity|]. destruct (Req_EM_T 0 0); [reflexivity|tauto]. Qed.

(** One summand of the log-linear interpolation *)
Definition part (v : R) (x : number) : number := if Req_EM_T v 0 then Real 0 else times v x.

Lemma part_log v x : 0 <= v -> log_number x -> log_number (part v x) /\ prob (part v x) = power (prob x) v.
Proof.
  intros Hv Hx. unfold part. destruct (Req_EM_T v 0) as [E|E].
  - cbn. split; [exact I|]. rewrite exp_0. unfold power. destruct (Req_EM_T v 0); tauto.
  - destruct x as [a| | |]; cbn in *; try tauto.
    + split; [exact I|]. symmetry. now apply power_exp.
    + destruct (Req_EM_T v 0); [tauto|]. destruct (Rlt_dec v 0); [lra|]. cbn. split; [exact I|].
      rewrite power_zero. destruct (Req_EM_T v 0); [tauto|reflexivity].
Qed.

Lemma plus_log x y : log_number x -> log_number y ->
  log_number (plus x y) /\ prob (plus x y) = prob x * prob y.
Proof.
  destruct x as [a| | |], y as [b| | |]; cbn; try tauto; intros _ _; (split; [exact I|]); try ring.
  apply exp_plus.
Qed.

Lemma loglinear_parts a b v1 v2 : log_number a -> log_number b -> 0 <= v1 -> 0 <= v2 ->
  exists r, interpolate_loglinear a b v1 v2 = Ok r /\ log_number r /\
    prob r = power (prob a) v1 * power (prob b) v2.
Proof.
  intros Ha Hb H1 H2.
  destruct (part_log v1 a H1 Ha) as [L1 P1]. destruct (part_log v2 b H2 Hb) as [L2 P2].
  rewrite <- P1, <- P2. unfold interpolate_loglinear, part in *. clear P1 P2.
  destruct a as [x| | |], b as [y| | |]; cbn in Ha, Hb; try tauto;
    cbn [times] in *;
    destruct (Req_EM_T v1 0), (Req_EM_T v2 0); try tauto;
    repeat match goal with |- context [Rlt_dec ?v 0] => destruct (Rlt_dec v 0) end; try lra;
    cbn [plus]; (eexists; split; [reflexivity|]; split; [exact I|]); cbn [prob];
    rewrite ?Rmult_0_l, ?Rmult_0_r, ?exp_0, ?Rplus_0_l, ?Rplus_0_r, ?exp_plus, ?exp_0; ring.
Qed.
