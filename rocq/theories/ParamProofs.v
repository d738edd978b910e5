From Verif Require Import Base ListLib BaseLib ParamModel ParamSpec.

Section Dict.
Context {A : Type}.
Implicit Types (d : list (pystr * A)) (a b : A).

Lemma pystr_eqb_spec (x y : pystr) : reflect (x = y) (pystr_eqb x y).
Proof. unfold pystr_eqb. destruct (pystr_eq_dec x y); constructor; assumption. Qed.

Lemma paths_app d1 d2 : paths (d1 ++ d2) = paths d1 ++ paths d2.
Proof. apply map_app. Qed.

Lemma in_paths path a d : In (path, a) d -> In path (paths d).
Proof. intros H. apply (in_map fst) in H. exact H. Qed.

Lemma dict_get_in path d a : dict_get path d = Some a -> In (path, a) d.
Proof.
  induction d as [|[q b] d IH]; cbn [dict_get]; [discriminate|].
  destruct (pystr_eqb_spec q path) as [->|N]; [intros [= ->]; now left|right; auto].
Qed.

Lemma dict_get_none path d : dict_get path d = None <-> ~ In path (paths d).
Proof.
  induction d as [|[q b] d IH]; cbn [dict_get paths map fst In]; [tauto|].
  destruct (pystr_eqb_spec q path) as [->|N]; [split; [discriminate|tauto]|]. rewrite IH. unfold paths. tauto.
Qed.

Lemma dict_get_some path d a : is_dict d -> In (path, a) d -> dict_get path d = Some a.
Proof.
  unfold is_dict. induction d as [|[q b] d IH]; cbn [dict_get paths map fst In]; [tauto|].
  intros N H. inversion N as [|? ? N1 N2]; subst. destruct (pystr_eqb_spec q path) as [->|Nq].
  - destruct H as [H|H]; [congruence|]. destruct N1. eapply in_paths; exact H.
  - destruct H as [H|H]; [congruence|]. apply IH; assumption.
Qed.

Lemma in_unique path d a b : is_dict d -> In (path, a) d -> In (path, b) d -> a = b.
Proof. intros N H1 H2. apply (dict_get_some _ _ _ N) in H1, H2. congruence. Qed.

Lemma dict_get_iff path d a : is_dict d -> dict_get path d = Some a <-> In (path, a) d.
Proof. split; [apply dict_get_in|now apply dict_get_some]. Qed.

Lemma replace_paths path a d : paths (dict_replace path a d) = paths d.
Proof.
  induction d as [|[q b] d IH]; cbn [dict_replace paths map]; [reflexivity|].
  destruct (pystr_eqb q path); cbn [map fst]; [reflexivity|]. f_equal. exact IH.
Qed.

Lemma replace_in path a d : is_dict d -> In path (paths d) ->
  forall q b, In (q, b) (dict_replace path a d) <-> (q = path /\ b = a) \/ (q <> path /\ In (q, b) d).
Proof.
  unfold is_dict. induction d as [|[r c] d IH]; cbn [dict_replace paths map fst In]; [tauto|].
  intros N H q b. inversion N as [|? ? N1 N2]; subst. destruct (pystr_eqb_spec r path) as [->|Nr]; cbn [In].
  - split.
    + intros [E|E]; [injection E as <- <-; auto|]. right. split; [|auto]. intros ->. apply N1. eapply in_paths; exact E.
    + intros [[-> ->]|[H1 [E|E]]]; [now left|congruence|now right].
  - destruct H as [H|H]; [congruence|]. rewrite (IH N2 H). split.
    + intros [E|[[-> ->]|[H1 H2]]]; [|tauto|tauto]. right. injection E as <- <-. auto.
    + intros [[-> ->]|[H1 [E|E]]]; [tauto|left; exact E|tauto].
Qed.

End Dict.

Section Proofs.
Context {V : Type}.
Notation dict := (list (pystr * array V)).
Implicit Types (d s vars : dict) (a b : array V).

Lemma assign_spec (old value : array V) : assign old value = (if list_eq_dec Nat.eq_dec (a_shape old) (a_shape value)
    then match a_shape old with [] => Err TypeError | _ => Ok value end else Err TypeError).
Proof. unfold assign. destruct (a_shape old) as [|x l]; [|reflexivity]. now destruct (list_eq_dec _ _ _). Qed.

Lemma assign_ok (old value new : array V) : assign old value = Ok new -> a_shape old = a_shape value /\ a_shape old <> [] /\ new = value.
Proof.
  rewrite assign_spec. destruct (list_eq_dec _ _ _) as [E|]; [|discriminate].
  destruct (a_shape old); [discriminate|]. intros [= ->]. split; [exact E|split; [discriminate|reflexivity]].
Qed.

Lemma assign_fits (old value : array V) : a_shape old = a_shape value -> a_shape old <> [] -> assign old value = Ok value.
Proof. intros E N. rewrite assign_spec. destruct (list_eq_dec _ _ _); [|contradiction]. now destruct (a_shape old). Qed.

(** ** Writing *)

Lemma store_parameter_spec s path a : is_dict s ->
  (exists s', store_parameter s (path, a) = Ok s') <-> writable [(path, a)] s.
Proof.
  intros D. unfold store_parameter. destruct (dict_get path s) as [b|] eqn:E.
  - apply (dict_get_iff _ _ _ D) in E. split.
    + intros [s' H]. destruct (assign b a) as [n|] eqn:Ea; [|discriminate]. apply assign_ok in Ea as (A1 & A2 & _).
      intros q a' b' [[= <- <-]|[]] Hb. now rewrite (in_unique _ _ _ _ D Hb E).
    + intros W. destruct (W path a b) as [W1 W2]; [now left|exact E|]. rewrite (assign_fits _ _ W1 W2). cbn. eauto.
  - apply dict_get_none in E. split; [|eauto]. intros _ q a' b' [[= <- <-]|[]] Hb. destruct E. eapply in_paths; exact Hb.
Qed.

Lemma store_parameter_overwritten s path a s' : is_dict s -> store_parameter s (path, a) = Ok s' -> overwritten [(path, a)] s s'.
Proof.
  intros D. unfold store_parameter. destruct (dict_get path s) as [b|] eqn:E.
  - apply (dict_get_iff _ _ _ D) in E. destruct (assign b a) as [n|] eqn:Ea; [|discriminate].
    apply assign_ok in Ea as (A1 & A2 & ->). cbn. intros [= <-]. split; [unfold is_dict; now rewrite replace_paths|].
    intros q c. rewrite replace_in; [|exact D|eapply in_paths; exact E]. cbn [paths map fst In]. split.
    + intros [[-> ->]|[H1 H2]]; [auto|]. right. split; [exact H2|]. intros [->|[]]. now apply H1.
    + intros [[[= <- <-]|[]]|[H1 H2]]; [auto|]. right. split; [intros ->; apply H2; now left|exact H1].
  - apply dict_get_none in E. intros [= <-]. split.
    + unfold is_dict. rewrite paths_app. apply NoDup_app_iff. split; [exact D|]. split; [constructor; [intros []|constructor]|].
      intros x H1 [<-|[]]. contradiction.
    + intros q c. rewrite in_app_iff. cbn [In paths map fst]. split.
      * intros [H|[[= -> ->]|[]]]; [|auto]. right. split; [exact H|]. intros [->|[]]. apply E. eapply in_paths; exact H.
      * tauto.
Qed.

Lemma overwritten_nil s : is_dict s -> overwritten [] s s.
Proof. intros D. split; [exact D|]. intros q c. cbn. tauto. Qed.

Lemma overwritten_app v1 v2 s s1 s2 : (forall x, In x (paths v1) -> In x (paths v2) -> False) ->
  overwritten v1 s s1 -> overwritten v2 s1 s2 -> overwritten (v1 ++ v2) s s2.
Proof.
  intros Dj [D1 H1] [D2 H2]. split; [exact D2|]. intros q c. rewrite H2, H1, paths_app, !in_app_iff. split.
  - intros [H|[[H|[H N1]] N2]]; [auto|auto|]. right. tauto.
  - intros [[H|H]|[H N]]; [|auto|].
    + right. split; [auto|]. intros Hq. apply (Dj q); [eapply in_paths; exact H|exact Hq].
    + right. tauto.
Qed.

Lemma writable_app v1 v2 s s1 : (forall x, In x (paths v1) -> In x (paths v2) -> False) ->
  overwritten v1 s s1 -> writable (v1 ++ v2) s <-> writable v1 s /\ writable v2 s1.
Proof.
  intros Dj [D1 H1]. split.
  - intros W. split; intros q a b Ha Hb.
    + apply (W q); [apply in_app_iff; auto|exact Hb].
    + apply H1 in Hb as [Hb|[Hb _]].
      * destruct (Dj q); eapply in_paths; eassumption.
      * apply (W q); [apply in_app_iff; auto|exact Hb].
  - intros [W1 W2] q a b Ha Hb. apply in_app_iff in Ha as [Ha|Ha]; [now apply (W1 q)|].
    apply (W2 q); [exact Ha|]. apply H1. right. split; [exact Hb|]. intros Hq. apply (Dj q Hq). eapply in_paths; exact Ha.
Qed.

Lemma dict_cons_inv x vars : is_dict (x :: vars) -> is_dict vars /\ forall p, In p (paths [x]) -> In p (paths vars) -> False.
Proof.
  unfold is_dict, paths. cbn [map]. intros N. inversion N; subst. split; [assumption|]. intros p [<-|[]] Hp. contradiction.
Qed.

Lemma get_state_spec vars : forall s, is_dict vars -> is_dict s ->
  (writable vars s -> exists s', foldM store_parameter vars s = Ok s' /\ overwritten vars s s') /\
  (~ writable vars s -> foldM store_parameter vars s = Err TypeError).
Proof.
  induction vars as [|[path a] vars IH]; intros s Dv Ds; cbn [foldM].
  - split; [|intros N; destruct N; intros q a b []]. intros _. exists s. split; [reflexivity|now apply overwritten_nil].
  - destruct (dict_cons_inv _ _ Dv) as [Dv' Dj].
    destruct (store_parameter s (path, a)) as [s1|e] eqn:E; cbn [bind].
    + assert (O1 := store_parameter_overwritten _ _ _ _ Ds E).
      pose proof (writable_app [(path, a)] vars s s1 Dj O1) as W. cbn [app] in W.
      assert (W1 : writable [(path, a)] s) by (apply store_parameter_spec; eauto).
      destruct (IH s1 Dv' (proj1 O1)) as [I1 I2]. split.
      * intros Wv. apply W in Wv as [_ W2]. destruct (I1 W2) as (s' & E' & O'). exists s'. split; [exact E'|].
        apply (overwritten_app [(path, a)] vars s s1 s' Dj O1 O').
      * intros N. apply I2. intros W2. apply N. apply W. auto.
    + split.
      * intros Wv. assert (W1 : writable [(path, a)] s).
        { intros q b c [[= <- <-]|[]] Hc. apply (Wv path); [now left|exact Hc]. }
        apply store_parameter_spec in W1 as [s' W1]; [congruence|exact Ds].
      * intros _. unfold store_parameter in E. destruct (dict_get path s) as [b|]; [|discriminate].
        rewrite assign_spec in E. destruct (list_eq_dec _ _ _); [|cbn in E; congruence].
        destruct (a_shape b); cbn in E; congruence.
Qed.

Lemma network_get_state_concat (layers : list (parameters V)) : forall s,
  network_get_state layers s = foldM store_parameter (flat_map p_vars layers) s.
Proof.
  unfold network_get_state. induction layers as [|p layers IH]; intros s; cbn [foldM flat_map]; [reflexivity|].
  rewrite foldM_app. unfold get_state. destruct (foldM store_parameter (p_vars p) s); cbn [bind]; [apply IH|reflexivity].
Qed.

(** ** Reading *)

Lemma readable_cons path a vars s : readable ((path, a) :: vars) s <->
  (exists b, In (path, b) s /\ length (a_shape b) = length (a_shape a)) /\ readable vars s.
Proof.
  split.
  - intros R. split; [apply R; now left|]. intros q c Hc. apply R. now right.
  - intros [H1 H2] q c [[= <- <-]|Hc]; [exact H1|now apply H2].
Qed.

Lemma set_vars_spec s : is_dict s -> forall vars vars' e, set_vars s vars = (vars', e) ->
  paths vars' = paths vars /\
  match e with
  | Ok _ => readable vars s /\ alike vars vars' /\ forall path a, In (path, a) vars' -> In (path, a) s
  | Err e => ~ readable vars s /\ (e = IncompatibleStateError \/ e = TypeError) /\
      (e = IncompatibleStateError -> exists path, In path (paths vars) /\ ~ In path (paths s)) /\
      (e = TypeError -> exists path a b, In (path, a) vars /\ In (path, b) s /\ length (a_shape b) <> length (a_shape a))
  end.
Proof.
  intros D. induction vars as [|[path a] vars IH]; intros vars' e; cbn [set_vars].
  - intros [= <- <-]. split; [reflexivity|]. split; [intros q b []|]. split; [constructor|contradiction].
  - destruct (dict_get path s) as [b|] eqn:E.
    + apply (dict_get_iff _ _ _ D) in E. destruct (Nat.eqb_spec (length (a_shape b)) (length (a_shape a))) as [L|L].
      * destruct (set_vars s vars) as [rest e'] eqn:Er. intros [= <- <-]. destruct (IH _ _ eq_refl) as [I1 I2].
        split; [cbn [paths map fst]; f_equal; exact I1|]. destruct e' as [u|e'].
        -- destruct I2 as (R & A & H). split; [rewrite readable_cons; eauto|]. split; [constructor; auto|].
           intros q c [[= <- <-]|Hc]; [exact E|now apply H].
        -- destruct I2 as (R & A & H1 & H2). split; [rewrite readable_cons; tauto|]. split; [exact A|]. split.
           ++ intros Ee. destruct (H1 Ee) as (q & Q1 & Q2). exists q. split; [now right|exact Q2].
           ++ intros Ee. destruct (H2 Ee) as (q & x & y & Q1 & Q2 & Q3). exists q, x, y. split; [now right|auto].
      * intros [= <- <-]. split; [reflexivity|]. split.
        { rewrite readable_cons. intros [(b' & Hb & Hl) _]. rewrite (in_unique _ _ _ _ D Hb E) in Hl. contradiction. }
        split; [auto|]. split; [discriminate|]. intros _. exists path, a, b. split; [now left|auto].
    + apply dict_get_none in E. intros [= <- <-]. split; [reflexivity|]. split.
      { rewrite readable_cons. intros [(b' & Hb & _) _]. apply E. eapply in_paths; exact Hb. }
      split; [auto|]. split; [|discriminate]. intros _. exists path. split; [now left|exact E].
Qed.

Lemma set_vars_same s : is_dict s -> forall vars vars', alike vars' vars -> (forall path a, In (path, a) vars -> In (path, a) s) ->
  set_vars s vars' = (vars, Ok tt).
Proof.
  intros D. induction vars as [|[path a] vars IH]; intros vars' A H; inversion A as [|x y ? ? [E1 E2]]; subst; cbn [set_vars]; [reflexivity|].
  destruct x as [q b]. cbn [fst snd] in E1, E2. subst q.
  rewrite (dict_get_some path s a D) by (apply H; now left). rewrite <- E2, Nat.eqb_refl.
  rewrite (IH l); [reflexivity|assumption|]. intros q c Hc. apply H. now right.
Qed.

Lemma network_set_state_same s : is_dict s -> forall layers layers' : list (parameters V),
  Forall2 (fun x y => alike (p_vars x) (p_vars y) /\ p_total x = p_total y) layers' layers ->
  (forall path a, In (path, a) (flat_map p_vars layers) -> In (path, a) s) ->
  network_set_state s layers' = (layers, Ok tt).
Proof.
  intros D. induction layers as [|p layers IH]; intros layers' A H; inversion A as [|x y ? ? [E1 E2]]; subst; cbn [network_set_state]; [reflexivity|].
  unfold set_state. rewrite (set_vars_same s D (p_vars p)); [|exact E1|].
  - rewrite (IH l); [|assumption|]. { rewrite E2. destruct p; reflexivity. }
    intros q c Hc. apply H. cbn [flat_map]. apply in_app_iff. auto.
  - intros q c Hc. apply H. cbn [flat_map]. apply in_app_iff. auto.
Qed.

(** ** Adding *)

Lemma add_spec (l : list (pystr * array V)) : forall p, is_dict (p_vars p) ->
  (is_dict (p_vars p ++ l) -> foldM (fun p x => add (fst x) (snd x) p) l p =
     Ok (mkParameters (p_vars p ++ l) (p_total p + list_sum (map (fun x => a_size (snd x)) l)))) /\
  (~ is_dict (p_vars p ++ l) -> foldM (fun p x => add (fst x) (snd x) p) l p = Err ValueError).
Proof.
  induction l as [|[path a] l IH]; intros p D; cbn [foldM].
  - rewrite app_nil_r. split; [|contradiction]. intros _. cbn. rewrite Nat.add_0_r. destruct p; reflexivity.
  - cbn [fst snd]. destruct (dict_get path (p_vars p)) as [b|] eqn:E.
    + replace (add path a p) with (@Err (parameters V) ValueError) by (unfold add; now rewrite E). cbn [bind]. split; [|reflexivity]. intros N. exfalso. unfold is_dict in N. rewrite paths_app in N. apply NoDup_app_iff in N as (_ & _ & N).
      apply (N path); [apply dict_get_in in E; eapply in_paths; exact E|now left].
    + replace (add path a p) with (Ok (mkParameters (p_vars p ++ [(path, a)]) (p_total p + a_size a))) by (unfold add; now rewrite E).
      apply dict_get_none in E. cbn [bind]. set (p1 := mkParameters (p_vars p ++ [(path, a)]) (p_total p + a_size a)).
      assert (D1 : is_dict (p_vars p1)).
      { unfold p1. cbn [p_vars]. unfold is_dict. rewrite paths_app. apply NoDup_app_iff. split; [exact D|].
        split; [constructor; [intros []|constructor]|]. intros x H1 [<-|[]]. contradiction. }
      destruct (IH p1 D1) as [I1 I2]. assert (Ev : p_vars p1 ++ l = p_vars p ++ (path, a) :: l) by (unfold p1; cbn [p_vars]; now rewrite <- app_assoc).
      rewrite Ev in *. split; [|exact I2]. intros N. rewrite (I1 N). f_equal. unfold p1. cbn [p_total map list_sum fold_right snd]. f_equal. unfold list_sum. lia.
Qed.

End Proofs.
