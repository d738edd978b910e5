(** A concrete number syntax and concrete lattices, used to show that the
    hypotheses of the lattice theorems can be met. *)
From Coq Require Import QArith Qcanon DecimalNat.
From Verif Require Import Base Strings ListLib Dict LatticeModel SlfModel KaldiModel LatticeSpec KaldiProofs.
Local Open Scope nat_scope.

Fixpoint digits (s : pystr) : result Decimal.uint :=
  match s with
  | [] => Ok Decimal.Nil
  | c :: s' =>
    do u <- digits s';
    if N.eq_dec c 48 then Ok (Decimal.D0 u) else if N.eq_dec c 49 then Ok (Decimal.D1 u)
    else if N.eq_dec c 50 then Ok (Decimal.D2 u) else if N.eq_dec c 51 then Ok (Decimal.D3 u)
    else if N.eq_dec c 52 then Ok (Decimal.D4 u) else if N.eq_dec c 53 then Ok (Decimal.D5 u)
    else if N.eq_dec c 54 then Ok (Decimal.D6 u) else if N.eq_dec c 55 then Ok (Decimal.D7 u)
    else if N.eq_dec c 56 then Ok (Decimal.D8 u) else if N.eq_dec c 57 then Ok (Decimal.D9 u)
    else Err ValueError
  end.
Lemma digits_show u : digits (show_uint u) = Ok u.
Proof. induction u; cbn [show_uint digits]; try rewrite IHu; reflexivity. Qed.
Lemma show_uint_digit u c : In c (show_uint u) -> In c [48; 49; 50; 51; 52; 53; 54; 55; 56; 57]%N.
Proof.
  induction u; cbn [show_uint]; intros H; [destruct H|..];
    (destruct H as [<-|H]; [cbn; tauto|now apply IHu]).
Qed.

Definition ex_parse_int (s : pystr) : result Z :=
  match s with
  | 45%N :: s' => do u <- digits s'; Ok (- Z.of_nat (Nat.of_uint u))%Z
  | _ => do u <- digits s; Ok (Z.of_nat (Nat.of_uint u))
  end.
Definition ex_show_z (z : Z) : pystr :=
  if (z <? 0)%Z then 45%N :: show_int (Z.to_nat (- z)) else show_int (Z.to_nat z).
Definition ex_show_num (q : Qc) : pystr :=
  ex_show_z (Qnum q) ++ 47%N :: show_int (Pos.to_nat (Qden q)).
Fixpoint cut_slash (s : pystr) : pystr * pystr :=
  match s with
  | [] => ([], [])
  | c :: s' => if N.eq_dec c 47 then ([], s') else let (a, b) := cut_slash s' in (c :: a, b)
  end.
Definition ex_parse_float (s : pystr) : result Qc :=
  let (a, b) := cut_slash s in
  do n <- ex_parse_int a; do d <- ex_parse_int b; Ok (Q2Qc (n # Z.to_pos d)).

Lemma ex_parse_nat n : ex_parse_int (show_int n) = Ok (Z.of_nat n).
Proof.
  unfold ex_parse_int, show_int. 
  assert (E : digits (show_uint (Nat.to_uint n)) = Ok (Nat.to_uint n)) by apply digits_show.
  pose proof (show_uint_digit (Nat.to_uint n)) as D.
  destruct (show_uint (Nat.to_uint n)) as [|c s] eqn:Es.
  - cbn in *. injection E as E. now rewrite <- (Unsigned.of_to n), <- E.
  - assert (Hc : c <> 45%N).
    { intros ->. specialize (D 45%N (or_introl eq_refl)). cbn in D. intuition discriminate. }
    replace (match c with 45%N => _ | _ => _ end) with (do u <- digits (c :: s); Ok (Z.of_nat (Nat.of_uint u))).
    + rewrite E. cbn [bind]. now rewrite Unsigned.of_to.
    + destruct c as [|p]; [reflexivity|]. do 6 (destruct p as [p|p|]; try reflexivity). congruence.
Qed.
Lemma ex_parse_z z : ex_parse_int (ex_show_z z) = Ok z.
Proof.
  unfold ex_show_z. destruct (Z.ltb_spec z 0).
  - cbn [ex_parse_int]. unfold show_int. rewrite digits_show. cbn [bind]. rewrite Unsigned.of_to. f_equal. lia.
  - rewrite ex_parse_nat. f_equal. lia.
Qed.
Lemma ex_show_z_chars z c : In c (ex_show_z z) -> In c [45; 48; 49; 50; 51; 52; 53; 54; 55; 56; 57]%N.
Proof.
  unfold ex_show_z. destruct (z <? 0)%Z; intros H.
  - destruct H as [<-|H]; [now left|]. right. now apply show_uint_digit in H.
  - right. now apply show_uint_digit in H.
Qed.
Lemma ex_show_z_nonempty z : ex_show_z z <> [].
Proof. unfold ex_show_z. destruct (z <? 0)%Z; [discriminate|apply show_int_nonempty]. Qed.
Lemma cut_slash_app a b : (forall c, In c a -> c <> 47%N) -> cut_slash (a ++ 47%N :: b) = (a, b).
Proof.
  induction a as [|c a IH]; intros H; [reflexivity|]. cbn [app cut_slash].
  destruct (N.eq_dec c 47) as [E|_]; [exfalso; apply (H c); [now left|exact E]|].
  rewrite IH; [reflexivity|]. intros x Hx. apply H. now right.
Qed.

Lemma ex_number_text : number_text ex_parse_int ex_parse_float ex_show_num.
Proof.
  split.
  - apply ex_parse_nat.
  - intros x. unfold ex_parse_float, ex_show_num. rewrite cut_slash_app.
    + rewrite ex_parse_z. cbn [bind]. rewrite ex_parse_nat. cbn [bind]. f_equal.
      rewrite positive_nat_Z. cbn [Z.to_pos]. destruct x as [[n d] H]. cbn [this Qnum Qden] in *.
      apply Qc_is_canon. cbn [this Q2Qc]. apply Qred_correct.
    + intros c Hc. apply ex_show_z_chars in Hc. intros ->. cbn in Hc. intuition discriminate.
  - intros x. unfold ex_show_num. destruct (ex_show_z (Qnum x)) eqn:E; [now apply ex_show_z_nonempty in E|discriminate].
  - intros x c Hc. assert (H : In c [45; 47; 48; 49; 50; 51; 52; 53; 54; 55; 56; 57]%N).
    { unfold ex_show_num in Hc. apply in_app_or in Hc. destruct Hc as [Hc|[<-|Hc]].
      - apply ex_show_z_chars in Hc. cbn in *. tauto.
      - cbn. tauto.
      - apply show_uint_digit in Hc. cbn in *. tauto. }
    clear Hc. cbn in H. repeat destruct H as [<-|H]; try (split; [cbn; intuition discriminate|reflexivity]). destruct H.
Qed.
Lemma ex_id_text : id_text ex_parse_int ex_show_z.
Proof.
  split; [apply ex_parse_z|apply ex_show_z_nonempty|].
  intros z c Hc. apply ex_show_z_chars in Hc. cbn in Hc.
  repeat destruct Hc as [<-|Hc]; try reflexivity. destruct Hc.
Qed.

(** A lattice with a branch, parallel links and a null link:
    0 -a-> 1, 0 -b-> 1, 0 -c-> 2, 1 -NULL-> 2, 2 -NULL-> 3 *)
Definition q (n : Z) (d : positive) : Qc := Q2Qc (n # d).
Definition ex_links : list link :=
  [mkLink 0 1 (Some (str "a")) (Some (q (-3) 2)) (Some (q (-1) 1)) [];
   mkLink 0 1 (Some (str "b")) (Some (q (-2) 1)) (Some (q (-1) 3)) [];
   mkLink 0 2 (Some (str "c")) (Some (q (-7) 2)) (Some (q (-1) 5)) [];
   mkLink 1 2 None (Some (q 0 1)) (Some (q (-1) 7)) [];
   mkLink 2 3 None (Some (q (-1) 9)) (Some (q 0 1)) []].
Definition ex_nodes : list node :=
  [mkNode [0; 1; 2] [] (Some (q 0 1)) false; mkNode [3] [0; 1] (Some (q 1 2)) false;
   mkNode [4] [2; 3] (Some (q 3 4)) false; mkNode [] [4] (Some (q 1 1)) true].
Definition ex_lattice : lattice := mkLattice ex_nodes ex_links 0 (Some (str "utt1")) (Some (q 12 1)) None.

Lemma ex_lattice_ok : lattice_ok ex_lattice.
Proof.
  split; [split|cbn; lia].
  - intros l Hl. cbn in Hl. destruct Hl as [<-|[<-|[<-|[<-|[<-|[]]]]]]; cbn; lia.
  - intros i n H. do 4 (destruct i as [|i]; [injection H as <-; reflexivity|]). destruct i; discriminate.
  - intros i n H. do 4 (destruct i as [|i]; [injection H as <-; reflexivity|]). destruct i; discriminate.
Qed.
Lemma ex_slf_writable : slf_writable ex_lattice.
Proof.
  split; [apply ex_lattice_ok|..].
  - exists (str "utt1"). split; [reflexivity|]. intros c Hc H. cbn in Hc, H. 
    repeat destruct Hc as [<-|Hc]; intuition discriminate.
  - intros l w Hl Hw. cbn in Hl.
    destruct Hl as [<-|[<-|[<-|[<-|[<-|[]]]]]]; cbn in Hw; try discriminate; injection Hw as <-;
      (split; [intros c Hc H; cbn in Hc, H; intuition (subst; discriminate)|reflexivity]).
  - exists 3. split; [cbn; lia|]. intros i n H.
    do 4 (destruct i as [|i]; [injection H as <-; cbn [n_final n_out]; split; (split; [discriminate || reflexivity|lia || reflexivity])|]).
    destruct i; discriminate.
Qed.

Definition ex_w2i : dict pystr Z :=
  [(str "<eps>", 0%Z); (str "a", 2%Z); (str "b", 1%Z); (str "c", 3%Z)].
Lemma ex_kaldi_vocabulary : kaldi_vocabulary_ok ex_w2i.
Proof.
  split; [|split].
  - repeat constructor; cbn; intuition discriminate.
  - repeat constructor; cbn; intuition discriminate.
  - intros w z H. cbn in H. destruct H as [H|[H|[H|[H|[]]]]]; injection H as <- <-; cbn; lia.
Qed.
Lemma ex_kaldi_writable : kaldi_writable ex_w2i ex_lattice.
Proof.
  split; [apply ex_lattice_ok|..].
  - exists (str "utt1"). split; [reflexivity|]. split; [discriminate|]. intros c Hc. cbn in Hc.
    repeat destruct Hc as [<-|Hc]; try reflexivity. destruct Hc.
  - split; [discriminate|]. cbn. lia.
  - intros i. unfold is_final_node. do 4 (destruct i as [|i]; [intros H; (discriminate || reflexivity)|]).
    destruct i; discriminate.
  - intros l Hl. cbn in Hl. destruct Hl as [<-|[<-|[<-|[<-|[<-|[]]]]]]; split; discriminate.
  - intros l Hl. cbn in Hl. destruct Hl as [<-|[<-|[<-|[<-|[<-|[]]]]]]; intros H; (discriminate || reflexivity).
  - intros l Hl. cbn in Hl. destruct Hl as [<-|[<-|[<-|[<-|[<-|[]]]]]]; intros H; try discriminate; cbn;
      intuition discriminate.
  - intros l c Hl. cbn in Hl. destruct Hl as [<-|[<-|[<-|[<-|[<-|[]]]]]]; intros [].
Qed.
