(** Python dictionaries that keep insertion order, as association lists. *)
From Verif Require Import Base.

Section Dict.
Context {K V : Type}.
Variable eq_dec : forall a b : K, {a = b} + {a <> b}.

Definition dict := list (K * V).

Fixpoint dict_get (d : dict) (k : K) : option V :=
  match d with
  | [] => None
  | (k', v) :: d' => if eq_dec k k' then Some v else dict_get d' k
  end.

(** [d[k] = v]: the position of an existing key is kept. *)
Fixpoint dict_set (d : dict) (k : K) (v : V) : dict :=
  match d with
  | [] => [(k, v)]
  | (k', v') :: d' => if eq_dec k k' then (k, v) :: d' else (k', v') :: dict_set d' k v
  end.

(** [del d[k]] when present *)
Definition dict_del (d : dict) (k : K) : dict :=
  filter (fun kv => if eq_dec k (fst kv) then false else true) d.

Definition dict_keys (d : dict) : list K := map fst d.
Definition dict_values (d : dict) : list V := map snd d.

Lemma dict_get_set_same d k v : dict_get (dict_set d k v) k = Some v.
Proof.
  induction d as [|[k' v'] d IH]; cbn.
  - destruct (eq_dec k k); congruence.
  - destruct (eq_dec k k') as [->|H]; cbn.
    + destruct (eq_dec k' k'); congruence.
    + destruct (eq_dec k k'); congruence.
Qed.

Lemma dict_get_set_other d k k' v : k <> k' -> dict_get (dict_set d k v) k' = dict_get d k'.
Proof.
  intros H. induction d as [|[k0 v0] d IH]; cbn.
  - destruct (eq_dec k' k); congruence.
  - destruct (eq_dec k k0) as [->|H0]; cbn.
    + destruct (eq_dec k' k0); congruence.
    + destruct (eq_dec k' k0); congruence.
Qed.

Lemma dict_get_in d k v : dict_get d k = Some v -> In (k, v) d.
Proof.
  induction d as [|[k0 v0] d IH]; cbn; [discriminate|].
  destruct (eq_dec k k0) as [->|H]; intros E; [left; congruence|right; auto].
Qed.

Lemma dict_get_none d k : dict_get d k = None <-> ~ In k (dict_keys d).
Proof.
  induction d as [|[k0 v0] d IH]; cbn; [tauto|].
  destruct (eq_dec k k0) as [->|H].
  - split; [discriminate|]. intros Hn. exfalso. apply Hn. now left.
  - rewrite IH. split; intros Hn; [intros [E|E]; [congruence|tauto]|tauto].
Qed.

Lemma dict_in_get d k v : NoDup (dict_keys d) -> In (k, v) d -> dict_get d k = Some v.
Proof.
  induction d as [|[k0 v0] d IH]; cbn; [tauto|].
  intros Hn [E|E].
  - injection E as -> ->. destruct (eq_dec k k); congruence.
  - inversion Hn as [|x l Hx Hl]; subst. destruct (eq_dec k k0) as [->|H]; [|auto].
    exfalso. apply Hx. apply in_map_iff. exists (k0, v). auto.
Qed.

Lemma dict_set_keys_new d k v : ~ In k (dict_keys d) -> dict_set d k v = d ++ [(k, v)].
Proof.
  induction d as [|[k0 v0] d IH]; cbn; [reflexivity|]. intros H.
  destruct (eq_dec k k0) as [->|Hk]; [exfalso; apply H; now left|].
  rewrite IH; [reflexivity|tauto].
Qed.

Lemma dict_set_keys_old d k v : In k (dict_keys d) -> dict_keys (dict_set d k v) = dict_keys d.
Proof.
  induction d as [|[k0 v0] d IH]; cbn; [tauto|]. intros H.
  destruct (eq_dec k k0) as [->|Hk]; cbn; [reflexivity|].
  f_equal. apply IH. destruct H; [congruence|assumption].
Qed.

Lemma dict_set_keys_in d k v x : In x (dict_keys (dict_set d k v)) <-> x = k \/ In x (dict_keys d).
Proof.
  induction d as [|[k0 v0] d IH]; cbn.
  - split; [intros [H|[]]; auto|intros [H|[]]; auto].
  - destruct (eq_dec k k0) as [->|Hk]; cbn; [split; intros [H|H]; auto; tauto|].
    rewrite IH. tauto.
Qed.

Lemma dict_set_nodup d k v : NoDup (dict_keys d) -> NoDup (dict_keys (dict_set d k v)).
Proof.
  induction d as [|[k0 v0] d IH]; cbn; intros H.
  - constructor; [intros []|constructor].
  - inversion H as [|x l Hx Hl]; subst. destruct (eq_dec k k0) as [->|Hk]; cbn; [exact H|].
    constructor; [|now apply IH]. rewrite dict_set_keys_in. intros [E|E]; [congruence|tauto].
Qed.

Lemma dict_del_keys d k x : In x (dict_keys (dict_del d k)) <-> x <> k /\ In x (dict_keys d).
Proof.
  unfold dict_keys, dict_del. rewrite !in_map_iff. split.
  - intros ([k0 v0] & <- & H). apply filter_In in H as [H1 H2]. cbn in *.
    destruct (eq_dec k k0); [discriminate|]. split; [congruence|]. exists (k0, v0). auto.
  - intros (Hn & [k0 v0] & <- & H). exists (k0, v0). split; [reflexivity|].
    apply filter_In. split; [exact H|]. cbn in *. destruct (eq_dec k k0); [congruence|reflexivity].
Qed.

Lemma dict_del_in d k x v : In (x, v) (dict_del d k) <-> x <> k /\ In (x, v) d.
Proof.
  unfold dict_del. rewrite filter_In. cbn. destruct (eq_dec k x) as [->|H].
  - split; [intros [_ H]; discriminate|intros [H _]; congruence].
  - split; [intros [H1 _]; split; [congruence|exact H1]|tauto].
Qed.

Lemma dict_del_nodup d k : NoDup (dict_keys d) -> NoDup (dict_keys (dict_del d k)).
Proof.
  induction d as [|[k0 v0] d IH]; cbn; intros H; [constructor|].
  inversion H as [|x l Hx Hl]; subst. destruct (eq_dec k k0) as [->|Hk]; cbn; [now apply IH|].
  constructor; [|now apply IH]. intros Hin. apply (dict_del_keys d k k0) in Hin. tauto.
Qed.

End Dict.
Arguments dict : clear implicits.
