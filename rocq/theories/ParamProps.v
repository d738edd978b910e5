(** Property C37: the saved state of parameters. *)
From Verif Require Import Base ListLib BaseLib ParamModel ParamSpec ParamProofs.

Section Statements.
Context {V : Type}.
Notation dict := (list (pystr * array V)).

(** Adding parameters one after another: refused exactly when a path is used twice,
    otherwise the parameters are those that were added, in order, and the total size
    is the number of their elements. *)
Theorem C37_add (l : dict) :
  (NoDup (map fst l) -> foldM (fun p x => add (fst x) (snd x) p) l no_parameters =
     Ok (mkParameters l (list_sum (map (fun x => fold_left Nat.mul (a_shape (snd x)) 1) l)))) /\
  (~ NoDup (map fst l) -> foldM (fun p x => add (fst x) (snd x) p) l no_parameters = Err ValueError).
Proof. exact (add_spec l no_parameters (NoDup_nil _)). Qed.

(** Saving: succeeds exactly when the parameters that the state has already have the
    same shape there and are not scalars; afterwards the state has the values of the
    parameters, and its other contents are unchanged. *)
Theorem C37_save (p : parameters V) (s : dict) : is_dict (p_vars p) -> is_dict s ->
  (writable (p_vars p) s -> exists s', get_state p s = Ok s' /\ overwritten (p_vars p) s s') /\
  (~ writable (p_vars p) s -> get_state p s = Err TypeError).
Proof. intros D1 D2. exact (get_state_spec (p_vars p) s D1 D2). Qed.

(** Restoring: succeeds exactly when all the parameters are in the state with the same
    number of dimensions; afterwards the parameters have the values of the state.
    IncompatibleStateError means that a parameter is missing from the state, and is
    raised if one is missing and the others have the same number of dimensions. *)
Theorem C37_restore (p p' : parameters V) (s : dict) r : is_dict s -> set_state s p = (p', r) ->
  map fst (p_vars p') = map fst (p_vars p) /\ p_total p' = p_total p /\
  match r with
  | Ok _ => readable (p_vars p) s /\ forall path a, In (path, a) (p_vars p') -> In (path, a) s
  | Err e => ~ readable (p_vars p) s /\ (e = IncompatibleStateError \/ e = TypeError) /\
      (e = IncompatibleStateError -> exists path, In path (map fst (p_vars p)) /\ ~ In path (map fst s)) /\
      (e = TypeError -> exists path a b, In (path, a) (p_vars p) /\ In (path, b) s /\ length (a_shape b) <> length (a_shape a))
  end.
Proof.
  intros D. unfold set_state. destruct (set_vars s (p_vars p)) as [vars e] eqn:E. intros [= <- <-].
  destruct (set_vars_spec s D _ _ _ E) as [H1 H2]. split; [exact H1|]. split; [reflexivity|].
  destruct e; [|exact H2]. destruct H2 as (A & _ & B). auto.
Qed.

(** Saving a model and the optimizer, and restoring both to a model of the same kind:
    all values, and the learning rate, are what they were. *)
Theorem C37_round_trip (layers layers' : list (parameters V)) (op op' : parameters V) (lr lr' : V) (s : h5 V) :
  let vars := flat_map p_vars layers ++ p_vars op in
  is_dict vars -> is_dict (h_data s) -> writable vars (h_data s) ->
  Forall2 (fun x y => alike (p_vars x) (p_vars y) /\ p_total x = p_total y) layers' layers ->
  alike (p_vars op') (p_vars op) -> p_total op' = p_total op ->
  exists s1 s2, network_get_state layers (h_data s) = Ok s1 /\
    optimizer_get_state lr op (mkH5 s1 (h_optimizer s)) = Ok s2 /\
    network_set_state (h_data s2) layers' = (layers, Ok tt) /\
    optimizer_set_state s2 lr' op' = ((lr, op), Ok tt) /\
    overwritten vars (h_data s) (h_data s2).
Proof.
  intros vars D Ds W A1 A2 Et. unfold optimizer_get_state, optimizer_set_state. rewrite network_get_state_concat.
  cbn [h_data h_optimizer]. destruct (get_state_spec vars (h_data s) D Ds) as [G _]. destruct (G W) as (s' & E & O).
  unfold vars in E. rewrite foldM_app in E. destruct (foldM store_parameter (flat_map p_vars layers) (h_data s)) as [s1|] eqn:E1; [|discriminate].
  cbn [bind] in E. exists s1, (mkH5 s' (Some (Some lr))). split; [reflexivity|]. split; [unfold get_state; now rewrite E|]. cbn [h_data h_optimizer].
  destruct O as [D' O]. split; [|split; [|exact (conj D' O)]].
  - apply (network_set_state_same s' D'); [exact A1|]. intros q c H. apply O. left. apply in_app_iff. auto.
  - unfold set_state. rewrite (set_vars_same s' D' (p_vars op)); [|exact A2|].
    + rewrite Et. destruct op; reflexivity.
    + intros q c H. apply O. left. apply in_app_iff. auto.
Qed.
End Statements.
Print Assumptions C37_add.
Print Assumptions C37_save.
Print Assumptions C37_restore.
Print Assumptions C37_round_trip.

(** A model with two layers, and an optimizer with an accumulator for one of them. *)
Definition l1 (x : nat) : parameters nat := mkParameters [([1%N], mkArray [2] [x; x])] 2.
Definition l2 (x y : nat) : parameters nat := mkParameters [([2%N], mkArray [1] [x]); ([3%N], mkArray [1; 2] [y; y])] 3.
Definition o1 (x : nat) : parameters nat := mkParameters [([1%N; 9%N], mkArray [2] [x; x])] 2.
(* the state has an older value of [1] and something else *)
Definition old_state : h5 nat := mkH5 [([7%N], mkArray [] [5]); ([1%N], mkArray [2] [0; 0])] None.
Example C37_example :
  let vars := flat_map p_vars [l1 4; l2 5 6] ++ p_vars (o1 7) in
  is_dict vars /\ is_dict (h_data old_state) /\ writable vars (h_data old_state) /\
  Forall2 (fun x y => alike (p_vars x) (p_vars y) /\ p_total x = p_total y) [l1 0; l2 0 0] [l1 4; l2 5 6] /\
  alike (p_vars (o1 0)) (p_vars (o1 7)) /\
  (do s1 <- network_get_state [l1 4; l2 5 6] (h_data old_state); optimizer_get_state 3 (o1 7) (mkH5 s1 None)) =
    Ok (mkH5 [([7%N], mkArray [] [5]); ([1%N], mkArray [2] [4; 4]); ([2%N], mkArray [1] [5]); ([3%N], mkArray [1; 2] [6; 6]);
              ([1%N; 9%N], mkArray [2] [7; 7])] (Some (Some 3))).
Proof.
  cbn zeta. split; [|split; [|split; [|split; [|split]]]].
  - unfold is_dict. cbn. repeat (constructor; [cbn; intuition congruence|]). constructor.
  - unfold is_dict. cbn. repeat (constructor; [cbn; intuition congruence|]). constructor.
  - intros q a b Ha Hb. cbn in Ha, Hb. repeat destruct Ha as [Ha|Ha]; try contradiction; injection Ha as <- <-;
      repeat destruct Hb as [Hb|Hb]; try contradiction; try discriminate; injection Hb as <-; cbn; split; [reflexivity|discriminate].
  - repeat (constructor; [split; [repeat (constructor; [cbn; auto|])|reflexivity]|]); constructor.
  - repeat (constructor; [cbn; auto|]). constructor.
  - reflexivity.
Qed.

(** The expectation that a failed restore changes nothing is false: the parameters
    before the missing one have been replaced. *)
Theorem C37_failed_restore_refuted :
  exists (p p' : parameters nat) s, is_dict (p_vars p) /\ is_dict s /\ set_state s p = (p', Err IncompatibleStateError) /\ p' <> p.
Proof.
  exists (l2 0 0), (l2 8 0), [([2%N], mkArray [1] [8])]. split; [|split; [|split; [reflexivity|discriminate]]].
  - unfold is_dict. cbn. repeat (constructor; [cbn; intuition congruence|]). constructor.
  - unfold is_dict. cbn. repeat (constructor; [cbn; intuition congruence|]). constructor.
Qed.
Print Assumptions C37_failed_restore_refuted.

(** Restoring the layers of a network stops at the first one that cannot be restored:
    those before it have the values of the state and those after it have not been
    changed. *)
Theorem C37_failed_network_restore {V} (s : list (pystr * array V)) (layers layers' : list (parameters V)) e :
  network_set_state s layers = (layers', Err e) ->
  exists before restored failed failed' after,
    layers = before ++ failed :: after /\ layers' = restored ++ failed' :: after /\
    Forall2 (fun p p' => set_state s p = (p', Ok tt)) before restored /\ set_state s failed = (failed', Err e).
Proof.
  revert layers'; induction layers as [|p layers IH]; intros layers'; cbn [network_set_state]; [discriminate|].
  destruct (set_state s p) as [p' [[]|e']] eqn:E.
  - destruct (network_set_state s layers) as [rest' e'] eqn:R. intros [= <- ->].
    destruct (IH _ eq_refl) as (b & r & f & f' & a & -> & -> & F & H).
    exists (p :: b), (p' :: r), f, f', a. repeat split; auto.
  - intros [= <- <-]. exists [], [], p, p', layers. repeat split; auto.
Qed.
Print Assumptions C37_failed_network_restore.
Example C37_failed_network_restore_case :
  network_set_state [([1%N], mkArray [1] [8])]
    [mkParameters [([1%N], mkArray [1] [0])] 1; mkParameters [([2%N], mkArray [1] [0])] 1; mkParameters [([1%N], mkArray [1] [0])] 1] =
  ([mkParameters [([1%N], mkArray [1] [8])] 1; mkParameters [([2%N], mkArray [1] [0])] 1; mkParameters [([1%N], mkArray [1] [0])] 1],
   Err IncompatibleStateError).
Proof. reflexivity. Qed.

(** The expectation that the sizes are checked is false: the state of a layer with
    three elements is accepted by a layer with two. *)
Theorem C37_size_refuted :
  exists (p p' : parameters nat) s, is_dict (p_vars p) /\ is_dict s /\ set_state s p = (p', Ok tt) /\
    map (fun x => a_shape (snd x)) (p_vars p') <> map (fun x => a_shape (snd x)) (p_vars p).
Proof.
  exists (l1 0), (mkParameters [([1%N], mkArray [3] [1; 2; 3])] 2), [([1%N], mkArray [3] [1; 2; 3])].
  split; [|split; [|split; [reflexivity|discriminate]]].
  - unfold is_dict. cbn. repeat (constructor; [cbn; intuition congruence|]). constructor.
  - unfold is_dict. cbn. repeat (constructor; [cbn; intuition congruence|]). constructor.
Qed.
Print Assumptions C37_size_refuted.

(** The expectation that a state can be saved again is false for scalar parameters,
    such as the time step of the Adam optimizer. *)
Theorem C37_save_again_refuted :
  exists (p : parameters nat) s, is_dict (p_vars p) /\ get_state p [] = Ok s /\ get_state p s = Err TypeError.
Proof.
  exists (mkParameters [([1%N], mkArray [] [1])] 1), [([1%N], mkArray [] [1])].
  split; [|split; reflexivity]. unfold is_dict. cbn. repeat (constructor; [cbn; intuition congruence|]). constructor.
Qed.
Print Assumptions C37_save_again_refuted.

(** Without scalars a state can be saved again and again. *)
Theorem C37_save_again {V} (p : parameters V) s s' : is_dict (p_vars p) -> is_dict s -> (forall path a, In (path, a) (p_vars p) -> a_shape a <> []) ->
  get_state p s = Ok s' -> exists s2, get_state p s' = Ok s2 /\ forall path a, In (path, a) s2 <-> In (path, a) s'.
Proof.
  intros D Ds Hs E. destruct (C37_save p s D Ds) as [G1 G2].
  destruct (get_state_spec (p_vars p) s D Ds) as [H1 H2]. unfold get_state in *.
  assert (W : exists s'', foldM store_parameter (p_vars p) s = Ok s'' /\ overwritten (p_vars p) s s'').
  { destruct (Forall_Exists_dec (fun x => match dict_get (fst x) s with Some b => a_shape b = a_shape (snd x) /\ a_shape b <> [] | None => True end)
      ltac:(intros [q a]; cbn; destruct (dict_get q s) as [b|]; [|now left];
            destruct (list_eq_dec Nat.eq_dec (a_shape b) (a_shape a)); [|right; tauto];
            destruct (list_eq_dec Nat.eq_dec (a_shape b) []); [right; tauto|left; tauto]) (p_vars p)) as [F|F].
    - apply H1. intros q a b Ha Hb. rewrite Forall_forall in F. specialize (F _ Ha). cbn in F.
      now rewrite (dict_get_some q s b Ds Hb) in F.
    - assert (N : ~ writable (p_vars p) s).
      { intros W. apply Exists_exists in F as ([q a] & Ha & F). apply F. cbn. destruct (dict_get q s) as [b|] eqn:Eb; [|exact I].
        apply dict_get_in in Eb. exact (W q a b Ha Eb). }
      rewrite (H2 N) in E. discriminate. }
  destruct W as (s'' & E'' & O). rewrite E in E''. injection E'' as <-. destruct O as [D' O].
  destruct (get_state_spec (p_vars p) s' D D') as [H3 _].
  assert (W : writable (p_vars p) s').
  { intros q a b Ha Hb. apply O in Hb as [Hb|[_ Hb]]; [|destruct Hb; eapply in_paths; exact Ha].
    rewrite (in_unique _ _ _ _ D Ha Hb). split; [reflexivity|]. exact (Hs q b Hb). }
  destruct (H3 W) as (s2 & E2 & _ & O2). exists s2. split; [exact E2|]. intros q a. rewrite O2. split.
  - intros [H|[H _]]; [apply O; now left|exact H].
  - intros H. apply O in H as [H|[H N]]; [now left|]. right. split; [apply O; auto|exact N].
Qed.
Print Assumptions C37_save_again.
