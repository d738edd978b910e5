(** Proofs about reading architecture descriptions. *)
From Verif Require Import Base BaseLib ListLib Strings Dict TextSpec TextProofs SlfModel SlfSpec SlfContents ArchModel ArchSpec ArchProofs.
Local Open Scope nat_scope.

Lemma pystr_eqb_iff a b : pystr_eqb a b = true <-> a = b.
Proof. unfold pystr_eqb. destruct (pystr_eq_dec a b); split; congruence. Qed.
Lemma pystr_eqb_refl a : pystr_eqb a a = true.
Proof. now apply pystr_eqb_iff. Qed.

Lemma name_in_one k n : name_in [k] n = pystr_eqb n k.
Proof. unfold name_in. cbn [existsb]. apply orb_false_r. Qed.

Lemma all_values_cons names n v r :
  all_values names ((n, v) :: r) = (if name_in names n then [v] else []) ++ all_values names r.
Proof. unfold all_values. cbn [filter fst]. destruct (name_in names n); reflexivity. Qed.
Lemma last_value_cons k n v r :
  last_value [k] ((n, v) :: r) =
  match last_value [k] r with Some x => Some x | None => if pystr_eq_dec k n then Some v else None end.
Proof.
  unfold last_value. rewrite all_values_cons, name_in_one. unfold pystr_eqb.
  rewrite rev_app_distr. destruct (rev (all_values [k] r)) as [|x l]; [|reflexivity].
  destruct (pystr_eq_dec n k), (pystr_eq_dec k n); try congruence; reflexivity.
Qed.
Lemma last_value_named k r : (exists v, last_value [k] r = Some v) <-> named k r.
Proof.
  unfold named. induction r as [|[n v] r IH]; cbn [map fst In].
  - split; [intros (v & H); discriminate|intros []].
  - rewrite last_value_cons. rewrite <- IH. destruct (last_value [k] r) as [x|].
    + split; [right|]; eauto.
    + destruct (pystr_eq_dec k n) as [->|Hk]; split.
      * now left.
      * eauto.
      * intros (x & H); discriminate.
      * intros [->|(x & H)]; congruence.
Qed.
Lemma last_value_in k r v : last_value [k] r = Some v -> In (k, v) r.
Proof.
  induction r as [|[n w] r IH]; [discriminate|]. rewrite last_value_cons.
  destruct (last_value [k] r) as [x|]; [intros [= ->]; right; auto|].
  destruct (pystr_eq_dec k n) as [->|]; [intros [= ->]; now left|discriminate].
Qed.
Lemma all_values_named k r : named k r -> all_values [k] r <> [].
Proof.
  intros H. apply last_value_named in H as (v & E). unfold last_value in E. intros Ha. now rewrite Ha in E.
Qed.

Lemma field_equals f n v : is_field f (n, v) -> split_equals f = Some (n, v).
Proof. intros H. apply field_split in H. unfold split_slf_field in H. destruct (split_equals f); congruence. Qed.
Lemma fields_unique toks r r' : Forall2 is_field toks r -> Forall2 is_field toks r' -> r = r'.
Proof.
  intros F. revert r'. induction F as [|t [n v] toks r H F IH]; intros r' F'; inversion F' as [|t' [n' v'] toks' r'' H' F'']; subst; [reflexivity|].
  apply field_equals in H, H'. rewrite H in H'. injection H' as -> ->. f_equal. now apply IH.
Qed.

(** ** Input lines *)
Definition set_strings (r : row) (o : options) : options :=
  fold_left (fun o nv => oset o (fst nv) (One (SStr (snd nv)))) r o.

Lemma input_fields_ok toks r : Forall2 is_field toks r -> forall o,
  foldM read_input_field toks o = Ok (set_strings r o).
Proof.
  induction 1 as [|t [n v] toks r H F IH]; intros o; cbn [foldM]; [reflexivity|].
  unfold read_input_field at 1. rewrite (field_equals _ _ _ H). cbn [bind]. apply IH.
Qed.
Lemma input_fields_inv toks : forall o o', foldM read_input_field toks o = Ok o' -> exists r, Forall2 is_field toks r.
Proof.
  induction toks as [|t toks IH]; intros o o'; cbn [foldM].
  - exists []. constructor.
  - unfold read_input_field at 1. destruct (split_equals t) as [[n v]|] eqn:E; cbn [bind]; [|discriminate].
    intros H. apply IH in H as (r & F). exists ((n, v) :: r). constructor; [|exact F]. now apply split_equals_field.
Qed.
Lemma set_strings_value r : forall o k, option_value (set_strings r o) k =
  match last_value [k] r with Some v => Some (One (SStr v)) | None => option_value o k end.
Proof.
  induction r as [|[n v] r IH]; intros o k; [reflexivity|].
  change (set_strings ((n, v) :: r) o) with (set_strings r (oset o n (One (SStr v)))). rewrite IH, last_value_cons.
  destruct (last_value [k] r); [reflexivity|].
  change (option_value (oset o n (One (SStr v))) k) with (oget (oset o n (One (SStr v))) k). rewrite oget_oset.
  now destruct (pystr_eq_dec k n).
Qed.
Lemma set_strings_dictionary r : forall o, dictionary o -> dictionary (set_strings r o).
Proof. induction r as [|nv r IH]; intros o D; [exact D|]. apply IH. now apply oset_dictionary. Qed.
Lemma has_iff o k : has o k = true <-> option_value o k <> None.
Proof. unfold has, option_value, oget. destruct (dict_get pystr_eq_dec o k); split; congruence. Qed.

Lemma read_input_ok toks o : read_input toks = Ok o -> exists r, Forall2 is_field toks r /\ input_options r o.
Proof.
  unfold read_input. destruct (foldM read_input_field toks []) as [o'|] eqn:E; cbn [bind]; [|discriminate].
  destruct (input_fields_inv _ _ _ E) as (r & F). rewrite (input_fields_ok _ _ F) in E. injection E as <-.
  destruct (has (set_strings r []) (str "type")) eqn:Et; cbn [negb]; [|discriminate].
  destruct (has (set_strings r []) (str "name")) eqn:En; cbn [negb]; [|discriminate].
  intros [= <-]. exists r. split; [exact F|]. apply has_iff in Et, En. rewrite set_strings_value in Et, En.
  constructor.
  - apply last_value_named. destruct (last_value [str "type"] r); [eauto|contradiction].
  - apply last_value_named. destruct (last_value [str "name"] r); [eauto|contradiction].
  - apply set_strings_dictionary. constructor.
  - intros k. rewrite set_strings_value. reflexivity.
Qed.
Lemma read_input_complete toks r o : Forall2 is_field toks r -> input_options r o ->
  exists o', read_input toks = Ok o' /\ same_options o o'.
Proof.
  intros F [Ht Hn D V]. unfold read_input. rewrite (input_fields_ok _ _ F). cbn [bind].
  assert (Et : has (set_strings r []) (str "type") = true).
  { apply has_iff. rewrite set_strings_value. apply last_value_named in Ht as (v & ->). discriminate. }
  assert (En : has (set_strings r []) (str "name") = true).
  { apply has_iff. rewrite set_strings_value. apply last_value_named in Hn as (v & ->). discriminate. }
  rewrite Et, En. exists (set_strings r []). split; [reflexivity|]. intros k. now rewrite set_strings_value, V.
Qed.

(** ** Layer lines *)
Section Layers.
Variable parse_int : pystr -> result Z.

Definition sizes_ok (r : row) : Prop := forall v, In (str "size", v) r -> exists z, parse_int v = Ok z.

Lemma layer_fields_inv toks : forall o o', foldM (read_layer_field parse_int) toks o = Ok o' ->
  exists r, Forall2 is_field toks r /\ sizes_ok r.
Proof.
  induction toks as [|t toks IH]; intros o o'; cbn [foldM].
  - intros _. exists []. split; [constructor|intros v []].
  - unfold read_layer_field at 1. destruct (split_equals t) as [[n v]|] eqn:E; [|discriminate].
    unfold pystr_eqb. apply split_equals_field in E.
    destruct (pystr_eq_dec n (str "size")) as [->|Hs].
    + destruct (parse_int v) as [z|] eqn:Ez; cbn [bind]; [|discriminate].
      intros H. apply IH in H as (r & F & Sz). exists ((str "size", v) :: r). split; [now constructor|].
      intros w [I|I]; [injection I as <-; eauto|auto].
    + intros H. assert (exists o1, foldM (read_layer_field parse_int) toks o1 = Ok o') as (o1 & H1).
      { destruct (if pystr_eq_dec n (str "input") then true else false), (if pystr_eq_dec n (str "device") then true else false);
        match type of H with bind ?x _ = _ => destruct x; [eauto|discriminate] end. }
      apply IH in H1 as (r & F & Sz). exists ((n, v) :: r). split; [now constructor|].
      intros w [I|I]; [congruence|auto].
Qed.

Definition pval (o : options) (k : pystr) : option value := option_value o k.
Lemma oset_value o k v k' : option_value (oset o k v) k' = if pystr_eq_dec k' k then Some v else option_value o k'.
Proof. apply oget_oset. Qed.

Lemma layer_fields_ok toks r : Forall2 is_field toks r -> no_reserved r -> sizes_ok r -> forall o vs ds,
  option_value o (str "inputs") = Some (Many vs) -> option_value o (str "devices") = Some (Many ds) ->
  dictionary o ->
  exists o', foldM (read_layer_field parse_int) toks o = Ok o' /\ dictionary o' /\
    option_value o' (str "inputs") = Some (Many (vs ++ map SStr (all_values [str "input"] r))) /\
    option_value o' (str "devices") = Some (Many (ds ++ map SStr (all_values [str "device"] r))) /\
    (match last_value [str "size"] r with
     | Some v => exists z, parse_int v = Ok z /\ option_value o' (str "size") = Some (One (SInt z))
     | None => option_value o' (str "size") = option_value o (str "size")
     end) /\
    (forall k, ~ In k [str "inputs"; str "devices"; str "size"] ->
       option_value o' k = if name_in [str "input"; str "device"] k then option_value o k
       else match last_value [k] r with Some v => Some (One (SStr v)) | None => option_value o k end).
Proof.
  induction 1 as [|t [n v] toks r H F IH]; intros [Ri Rd] Sz o vs ds Ei Ed D; cbn [foldM].
  - exists o. split; [reflexivity|]. split; [exact D|]. cbn [all_values filter map]. rewrite !app_nil_r.
    repeat split; auto. intros k _. now destruct (name_in _ k).
  - assert (R' : no_reserved r) by (split; intros I; [apply Ri|apply Rd]; right; exact I).
    assert (Sz' : sizes_ok r) by (intros w I; apply Sz; now right).
    assert (Hi : n <> str "inputs") by (intros ->; apply Ri; now left).
    assert (Hd : n <> str "devices") by (intros ->; apply Rd; now left).
    unfold read_layer_field at 1. rewrite (field_equals _ _ _ H).
    rewrite !all_values_cons, !name_in_one, last_value_cons.
    destruct (pystr_eqb n (str "size")) eqn:Es; [apply pystr_eqb_iff in Es|].
    { destruct (Sz v) as (z & Ez); [left; now rewrite Es|]. rewrite Ez. cbn [bind].
      destruct (IH R' Sz' (oset o n (One (SInt z))) vs ds) as (o' & E & D' & P1 & P2 & P3 & P4).
      - rewrite oset_value. destruct (pystr_eq_dec (str "inputs") n); congruence.
      - rewrite oset_value. destruct (pystr_eq_dec (str "devices") n); congruence.
      - now apply oset_dictionary.
      - exists o'. subst n.
        replace (pystr_eqb (str "size") (str "input")) with false by (vm_compute; reflexivity).
        replace (pystr_eqb (str "size") (str "device")) with false by (vm_compute; reflexivity).
        split; [exact E|]. split; [exact D'|]. split; [exact P1|]. split; [exact P2|]. split.
        + destruct (last_value [str "size"] r); [exact P3|].
          destruct (pystr_eq_dec (str "size") (str "size")); [|congruence]. exists z. split; [exact Ez|].
          rewrite P3, oset_value. now destruct (pystr_eq_dec (str "size") (str "size")).
        + intros k Hk. rewrite P4 by exact Hk. rewrite oset_value, last_value_cons.
          destruct (pystr_eq_dec k (str "size")) as [->|]; [exfalso; apply Hk; right; right; now left|now destruct (last_value [k] r)]. }
    assert (Hs : n <> str "size") by (intros E; apply pystr_eqb_iff in E; congruence).
    destruct (pystr_eqb n (str "input")) eqn:Ein; [apply pystr_eqb_iff in Ein|].
    { unfold append_to, lookup. change (oget o (str "inputs")) with (option_value o (str "inputs")). rewrite Ei. cbn [bind].
      destruct (IH R' Sz' (oset o (str "inputs") (Many (vs ++ [SStr v]))) (vs ++ [SStr v]) ds) as (o' & E & D' & P1 & P2 & P3 & P4).
      - rewrite oset_value. now destruct (pystr_eq_dec (str "inputs") (str "inputs")).
      - rewrite oset_value. destruct (pystr_eq_dec (str "devices") (str "inputs")); [discriminate|exact Ed].
      - now apply oset_dictionary.
      - exists o'. subst n.
        replace (pystr_eqb (str "input") (str "device")) with false by (vm_compute; reflexivity).
        split; [exact E|]. split; [exact D'|]. split; [now rewrite P1, <- app_assoc|]. split; [exact P2|]. split.
        + destruct (last_value [str "size"] r); [exact P3|].
          destruct (pystr_eq_dec (str "size") (str "input")); [discriminate|].
          rewrite P3, oset_value. destruct (pystr_eq_dec (str "size") (str "inputs")); [discriminate|reflexivity].
        + intros k Hk. rewrite P4 by exact Hk. rewrite oset_value, last_value_cons.
          destruct (pystr_eq_dec k (str "inputs")) as [->|]; [exfalso; apply Hk; now left|].
          destruct (pystr_eq_dec k (str "input")) as [->|]; [reflexivity|now destruct (last_value [k] r)]. }
    assert (Hin : n <> str "input") by (intros E; apply pystr_eqb_iff in E; congruence).
    destruct (pystr_eqb n (str "device")) eqn:Ede; [apply pystr_eqb_iff in Ede|].
    { unfold append_to, lookup. change (oget o (str "devices")) with (option_value o (str "devices")). rewrite Ed. cbn [bind].
      destruct (IH R' Sz' (oset o (str "devices") (Many (ds ++ [SStr v]))) vs (ds ++ [SStr v])) as (o' & E & D' & P1 & P2 & P3 & P4).
      - rewrite oset_value. destruct (pystr_eq_dec (str "inputs") (str "devices")); [discriminate|exact Ei].
      - rewrite oset_value. now destruct (pystr_eq_dec (str "devices") (str "devices")).
      - now apply oset_dictionary.
      - exists o'. subst n.
        split; [exact E|]. split; [exact D'|]. split; [exact P1|]. split; [now rewrite P2, <- app_assoc|]. split.
        + destruct (last_value [str "size"] r); [exact P3|].
          destruct (pystr_eq_dec (str "size") (str "device")); [discriminate|].
          rewrite P3, oset_value. destruct (pystr_eq_dec (str "size") (str "devices")); [discriminate|reflexivity].
        + intros k Hk. rewrite P4 by exact Hk. rewrite oset_value, last_value_cons.
          destruct (pystr_eq_dec k (str "devices")) as [->|]; [exfalso; apply Hk; right; now left|].
          destruct (pystr_eq_dec k (str "device")) as [->|]; [reflexivity|now destruct (last_value [k] r)]. }
    assert (Hde : n <> str "device") by (intros E; apply pystr_eqb_iff in E; congruence).
    cbn [bind].
    destruct (IH R' Sz' (oset o n (One (SStr v))) vs ds) as (o' & E & D' & P1 & P2 & P3 & P4).
    + rewrite oset_value. destruct (pystr_eq_dec (str "inputs") n); congruence.
    + rewrite oset_value. destruct (pystr_eq_dec (str "devices") n); congruence.
    + now apply oset_dictionary.
    + exists o'. split; [exact E|]. split; [exact D'|]. split; [exact P1|]. split; [exact P2|]. split.
      * destruct (last_value [str "size"] r); [exact P3|].
        destruct (pystr_eq_dec (str "size") n); [congruence|].
        rewrite P3, oset_value. destruct (pystr_eq_dec (str "size") n); [congruence|reflexivity].
      * intros k Hk. rewrite P4 by exact Hk. rewrite oset_value, last_value_cons.
        destruct (pystr_eq_dec k n) as [->|]; [|now destruct (last_value [k] r)].
        unfold name_in. cbn [existsb]. rewrite Ein, Ede. cbn [orb]. now destruct (last_value [n] r).
Qed.

Definition layer_start : options := [(str "inputs", Many []); (str "devices", Many [])].
Lemma layer_start_value k : ~ In k [str "inputs"; str "devices"] -> option_value layer_start k = None.
Proof.
  intros H. unfold option_value, layer_start. cbn [dict_get]. cbn [In] in H.
  destruct (pystr_eq_dec k (str "inputs")); [exfalso; auto|]. destruct (pystr_eq_dec k (str "devices")); [exfalso; auto|reflexivity].
Qed.
Lemma layer_start_dictionary : dictionary layer_start.
Proof.
  unfold dictionary, layer_start. cbn [map fst]. constructor; [|constructor; [intros []|constructor]].
  intros [E|[]]. vm_compute in E. discriminate.
Qed.

Lemma layer_result toks r : Forall2 is_field toks r -> no_reserved r -> sizes_ok r ->
  exists o, foldM (read_layer_field parse_int) toks layer_start = Ok o /\ dictionary o /\
    option_value o (str "inputs") = Some (Many (map SStr (all_values [str "input"] r))) /\
    option_value o (str "devices") = Some (Many (map SStr (all_values [str "device"] r))) /\
    (match last_value [str "size"] r with
     | Some v => exists z, parse_int v = Ok z /\ option_value o (str "size") = Some (One (SInt z))
     | None => option_value o (str "size") = None
     end) /\
    (forall k, ~ In k [str "inputs"; str "devices"; str "size"] ->
       option_value o k = if name_in [str "input"; str "device"] k then None
       else match last_value [k] r with Some v => Some (One (SStr v)) | None => None end).
Proof.
  intros F R Sz.
  destruct (layer_fields_ok toks r F R Sz layer_start [] [] eq_refl eq_refl layer_start_dictionary)
    as (o & E & D & P1 & P2 & P3 & P4).
  exists o. split; [exact E|]. split; [exact D|]. split; [exact P1|]. split; [exact P2|]. split.
  - exact P3.
  - intros k Hk. rewrite P4 by exact Hk. rewrite layer_start_value; [reflexivity|].
    intros I. apply Hk. cbn [In] in *. tauto.
Qed.

Lemma plain_type : ~ In (str "type") [str "inputs"; str "devices"; str "size"].
Proof. intros [E|[E|[E|[]]]]; vm_compute in E; discriminate. Qed.
Lemma plain_name : ~ In (str "name") [str "inputs"; str "devices"; str "size"].
Proof. intros [E|[E|[E|[]]]]; vm_compute in E; discriminate. Qed.

Lemma read_layer_ok toks o : read_layer parse_int toks = Ok o ->
  exists r, Forall2 is_field toks r /\ (no_reserved r -> layer_options parse_int r o).
Proof.
  unfold read_layer. fold layer_start.
  destruct (foldM (read_layer_field parse_int) toks layer_start) as [o1|] eqn:E; cbn [bind]; [|discriminate].
  destruct (layer_fields_inv _ _ _ E) as (r & F & Sz). intros H. exists r. split; [exact F|]. intros R.
  destruct (layer_result toks r F R Sz) as (o2 & E2 & D & P1 & P2 & P3 & P4).
  assert (o2 = o1) as -> by congruence. clear E2.
  destruct (has o1 (str "type")) eqn:Et; cbn [negb] in H; [|discriminate].
  destruct (has o1 (str "name")) eqn:En; cbn [negb] in H; [|discriminate].
  unfold lookup in H. change (oget o1 (str "inputs")) with (option_value o1 (str "inputs")) in H. rewrite P1 in H. cbn [bind] in H.
  destruct (falsy _) eqn:Ef in H; [discriminate|]. injection H as <-.
  apply has_iff in Et, En. rewrite P4 in Et by apply plain_type. rewrite P4 in En by apply plain_name.
  replace (name_in _ _) with false in Et by (vm_compute; reflexivity).
  replace (name_in _ _) with false in En by (vm_compute; reflexivity).
  constructor; auto.
  - apply last_value_named. destruct (last_value [str "type"] r); [eauto|contradiction].
  - apply last_value_named. destruct (last_value [str "name"] r); [eauto|contradiction].
  - destruct (all_values [str "input"] r) as [|v l] eqn:Ev; [discriminate|].
    apply last_value_named. unfold last_value. rewrite Ev. destruct (rev (v :: l)) eqn:Er; [|eauto].
    apply (f_equal (@length _)) in Er. rewrite rev_length in Er. discriminate.
  - intros v z Ev Ez. rewrite Ev in P3. destruct P3 as (z' & Ez' & ->). congruence.
  - intros Ev. now rewrite Ev in P3.
Qed.

Lemma read_layer_complete toks r o : Forall2 is_field toks r -> no_reserved r -> layer_options parse_int r o ->
  exists o', read_layer parse_int toks = Ok o' /\ same_options o o'.
Proof.
  intros F R [Ht Hn Hi D Sz Vi Vd Vs Vn V]. unfold read_layer. fold layer_start.
  destruct (layer_result toks r F R Sz) as (o' & E & D' & P1 & P2 & P3 & P4).
  rewrite E. cbn [bind].
  assert (Et : has o' (str "type") = true).
  { apply has_iff. rewrite P4 by apply plain_type. replace (name_in _ _) with false by (vm_compute; reflexivity).
    apply last_value_named in Ht as (v & ->). discriminate. }
  assert (En : has o' (str "name") = true).
  { apply has_iff. rewrite P4 by apply plain_name. replace (name_in _ _) with false by (vm_compute; reflexivity).
    apply last_value_named in Hn as (v & ->). discriminate. }
  rewrite Et, En. cbn [negb]. unfold lookup. change (oget o' (str "inputs")) with (option_value o' (str "inputs")).
  rewrite P1. cbn [bind].
  pose proof (all_values_named _ _ Hi) as Ha. destruct (all_values [str "input"] r) as [|x l] eqn:Ev; [contradiction|].
  cbn [map falsy]. exists o'. split; [reflexivity|]. intros k.
  destruct (in_dec pystr_eq_dec k [str "inputs"; str "devices"; str "size"]) as [I|I].
  - destruct I as [<-|[<-|[<-|[]]]]; [congruence|congruence|].
    destruct (last_value [str "size"] r) as [v|] eqn:El.
    + destruct P3 as (z & Ez & ->). now rewrite (Vs v z).
    + rewrite P3. now apply Vn.
  - now rewrite V, P4.
Qed.

(** ** Lines *)
Lemma comment_head s : (match 35%N :: s with c :: _ => N.eqb c hash | [] => false end) = true.
Proof. reflexivity. Qed.

Definition ends (st st' : list options * list options) (e : option element) : Prop :=
  match e with
  | None => st' = st
  | Some (EInput r) => exists o, input_options r o /\ st' = (fst st ++ [o], snd st)
  | Some (ELayer r) => exists o, (no_reserved r -> layer_options parse_int r o) /\ st' = (fst st, snd st ++ [o])
  end.

Lemma read_line_ok st line st' : read_line parse_int st line = Ok st' -> exists e, line_holds line e /\ ends st st' e.
Proof.
  destruct st as [inputs layers]. unfold read_line. pose proof (split_tokens line) as T.
  destruct (split line) as [|first toks].
  - intros [= <-]. exists None. split; [now constructor|reflexivity].
  - destruct first as [|c s].
    + exfalso. inversion T; subst; congruence.
    + destruct (N.eqb_spec c hash) as [->|Hc].
      * intros [= <-]. exists None. split; [eapply lh_comment; exact T|reflexivity].
      * destruct (pystr_eqb (c :: s) (str "input")) eqn:Ei.
        { apply pystr_eqb_iff in Ei. rewrite Ei in T. destruct (read_input toks) as [o|] eqn:Eo; cbn [bind]; [|discriminate].
          intros [= <-]. apply read_input_ok in Eo as (r & F & I). exists (Some (EInput r)).
          split; [eapply lh_input; eauto|]. exists o. auto. }
        destruct (pystr_eqb (c :: s) (str "layer")) eqn:El; [|discriminate].
        apply pystr_eqb_iff in El. rewrite El in T. destruct (read_layer parse_int toks) as [o|] eqn:Eo; cbn [bind]; [|discriminate].
        intros [= <-]. apply read_layer_ok in Eo as (r & F & I). exists (Some (ELayer r)).
        split; [eapply lh_layer; eauto|]. exists o. auto.
Qed.

Lemma read_line_blank st line : line_holds line None -> read_line parse_int st line = Ok st.
Proof.
  intros H. destruct st as [inputs layers]. unfold read_line.
  inversion H as [T|s toks T| |]; subst; rewrite (tokens_split _ _ T); reflexivity.
Qed.
Lemma read_line_input st line r o : line_holds line (Some (EInput r)) -> input_options r o ->
  exists o', read_line parse_int st line = Ok (fst st ++ [o'], snd st) /\ same_options o o'.
Proof.
  intros H I. destruct st as [inputs layers]. inversion H as [| |toks r' T F|]; subst.
  destruct (read_input_complete _ _ _ F I) as (o' & E & Sm). exists o'. split; [|exact Sm].
  unfold read_line. rewrite (tokens_split _ _ T).
  replace (match str "input" with c :: _ => N.eqb c hash | [] => false end) with false by (vm_compute; reflexivity).
  rewrite pystr_eqb_refl, E. reflexivity.
Qed.
Lemma read_line_layer st line r o : line_holds line (Some (ELayer r)) -> no_reserved r -> layer_options parse_int r o ->
  exists o', read_line parse_int st line = Ok (fst st, snd st ++ [o']) /\ same_options o o'.
Proof.
  intros H R I. destruct st as [inputs layers]. inversion H as [| | |toks r' T F]; subst.
  destruct (read_layer_complete _ _ _ F R I) as (o' & E & Sm). exists o'. split; [|exact Sm].
  unfold read_line. rewrite (tokens_split _ _ T).
  replace (match str "layer" with c :: _ => N.eqb c hash | [] => false end) with false by (vm_compute; reflexivity).
  replace (pystr_eqb (str "layer") (str "input")) with false by (vm_compute; reflexivity).
  rewrite pystr_eqb_refl, E. reflexivity.
Qed.

Lemma read_lines_ok lines : forall st st', foldM (read_line parse_int) lines st = Ok st' ->
  exists es inputs layers, Forall2 line_holds lines es /\ st' = (fst st ++ inputs, snd st ++ layers) /\
    Forall2 input_options (input_rows es) inputs /\
    Forall2 (fun r o => no_reserved r -> layer_options parse_int r o) (layer_rows es) layers.
Proof.
  induction lines as [|line lines IH]; intros st st'; cbn [foldM].
  - intros [= <-]. exists [], [], []. rewrite !app_nil_r. repeat split; try constructor. now destruct st.
  - destruct (read_line parse_int st line) as [st1|] eqn:E; cbn [bind]; [|discriminate].
    intros H. apply IH in H as (es & inputs & layers & Fl & -> & Fi & Fy).
    apply read_line_ok in E as (e & L & En). exists (e :: es).
    unfold input_rows, layer_rows in *. cbn [map concat].
    destruct e as [[r|r]|]; cbn [ends] in En.
    + destruct En as (o & I & ->). exists (o :: inputs), layers. cbn [fst snd app]. rewrite <- app_assoc.
      repeat split; auto; now constructor.
    + destruct En as (o & I & ->). exists inputs, (o :: layers). cbn [fst snd app]. rewrite <- app_assoc.
      repeat split; auto; now constructor.
    + subst st1. exists inputs, layers. cbn [app]. repeat split; auto.
Qed.

Lemma read_lines_complete lines es : Forall2 line_holds lines es -> forall st inputs layers,
  Forall no_reserved (layer_rows es) ->
  Forall2 input_options (input_rows es) inputs ->
  Forall2 (layer_options parse_int) (layer_rows es) layers ->
  exists inputs' layers', foldM (read_line parse_int) lines st = Ok (fst st ++ inputs', snd st ++ layers') /\
    Forall2 same_options inputs inputs' /\ Forall2 same_options layers layers'.
Proof.
  induction 1 as [|line e lines es L F IH]; intros st inputs layers; unfold input_rows, layer_rows; cbn [map concat].
  - intros _ Fi Fy. inversion Fi; inversion Fy; subst. exists [], []. rewrite !app_nil_r. cbn [foldM].
    repeat split; try constructor. now destruct st.
  - fold (input_rows es) (layer_rows es). cbn [foldM]. destruct e as [[r|r]|]; cbn [app]; intros R Fi Fy.
    + inversion Fi as [|r0 o rs os I Fi']; subst. destruct (read_line_input st line r o L I) as (o' & -> & Sm). cbn [bind].
      destruct (IH (fst st ++ [o'], snd st) os layers R Fi' Fy) as (i' & l' & -> & S1 & S2).
      exists (o' :: i'), l'. cbn [fst snd]. rewrite <- app_assoc. repeat split; auto.
    + inversion Fy as [|r0 o rs os I Fy']; subst. inversion R as [|r1 rs1 R1 R2]; subst.
      destruct (read_line_layer st line r o L R1 I) as (o' & -> & Sm). cbn [bind].
      destruct (IH (fst st, snd st ++ [o']) inputs os R2 Fi Fy') as (i' & l' & -> & S1 & S2).
      exists i', (o' :: l'). cbn [fst snd]. rewrite <- app_assoc. repeat split; auto.
    + rewrite (read_line_blank _ _ L). cbn [bind]. apply (IH st inputs layers R Fi Fy).
Qed.

Lemma tokens_unique line a b : tokens line a -> tokens line b -> a = b.
Proof. intros H1 H2. apply tokens_split in H1, H2. congruence. Qed.
Lemma holds_unique line e e' : line_holds line e -> line_holds line e' -> e = e'.
Proof.
  intros H1 H2. inversion H1 as [T1|s1 t1 T1|t1 r1 T1 F1|t1 r1 T1 F1]; inversion H2 as [T2|s2 t2 T2|t2 r2 T2 F2|t2 r2 T2 F2]; subst;
    pose proof (tokens_unique _ _ _ T1 T2) as E; try reflexivity; try discriminate.
  - injection E as ->. now rewrite (fields_unique _ _ _ F1 F2).
  - injection E as ->. now rewrite (fields_unique _ _ _ F1 F2).
Qed.
Lemma holds_all_unique lines es es' : Forall2 line_holds lines es -> Forall2 line_holds lines es' -> es = es'.
Proof.
  intros F. revert es'. induction F as [|line e lines es L F IH]; intros es' F'; inversion F'; subst; [reflexivity|].
  f_equal; [eapply holds_unique; eauto|auto].
Qed.

(** ** Files *)
Lemma last_name_ok rs r layers v : Forall2 (layer_options parse_int) (rs ++ [r]) layers ->
  last_value [str "name"] r = Some v -> last_name layers = Ok (SStr v).
Proof.
  intros F E. apply Forall2_app_inv_l in F as (l1 & l2 & _ & F & ->).
  inversion F as [|r0 o x y H F']; subst. inversion F'; subst.
  unfold last_name. rewrite rev_app_distr. cbn [rev app]. unfold lookup.
  change (oget o (str "name")) with (option_value o (str "name")).
  rewrite (lo_values _ _ _ H _ plain_name). replace (name_in _ _) with false by (vm_compute; reflexivity).
  rewrite E. reflexivity.
Qed.
Lemma snoc_cases {A} (l : list A) : l = [] \/ exists l' x, l = l' ++ [x].
Proof.
  destruct (rev l) as [|x l'] eqn:E.
  - left. apply (f_equal (@rev _)) in E. now rewrite rev_involutive in E.
  - right. exists (rev l'), x. apply (f_equal (@rev _)) in E. rewrite rev_involutive in E. exact E.
Qed.
Lemma Forall2_reserved rs layers : Forall no_reserved rs ->
  Forall2 (fun r o => no_reserved r -> layer_options parse_int r o) rs layers -> Forall2 (layer_options parse_int) rs layers.
Proof.
  intros H F. revert H. induction F; intros Hf; inversion Hf; subst; constructor; auto.
Qed.

Lemma from_description_ok lines a :
  (forall es, Forall2 line_holds lines es -> Forall no_reserved (layer_rows es)) ->
  from_description parse_int lines = Ok a -> exists es, Forall2 line_holds lines es /\ describes parse_int es a.
Proof.
  intros R. unfold from_description. destruct (foldM (read_line parse_int) lines ([], [])) as [[inputs layers]|] eqn:E; cbn [bind]; [|discriminate].
  apply read_lines_ok in E as (es & i & l & F & Est & Fi & Fl). cbn [fst snd app] in Est. injection Est as -> ->.
  specialize (R es F). apply (Forall2_reserved _ _ R) in Fl.
  destruct i as [|i0 i1]; [discriminate|]. destruct l as [|l0 l1]; [discriminate|].
  unfold make_arch. destruct (snoc_cases (layer_rows es)) as [El|(rs & r & El)]; [rewrite El in Fl; inversion Fl|].
  assert (Hn : named (str "name") r).
  { rewrite El in Fl. apply Forall2_app_inv_l in Fl as (x & y & _ & Fy & _). inversion Fy as [|? ? ? ? H _]; subst. apply H. }
  apply last_value_named in Hn as (v & Ev).
  pose proof Fl as Fl'. rewrite El in Fl'. rewrite (last_name_ok _ _ _ _ Fl' Ev). cbn [bind]. intros [= <-].
  exists es. split; [exact F|]. constructor; cbn [a_inputs a_layers a_output]; auto.
  - intros En. rewrite En in Fi. inversion Fi.
  - exists rs, r, v. auto.
Qed.

Lemma from_description_complete lines es a : Forall no_reserved (layer_rows es) ->
  Forall2 line_holds lines es -> describes parse_int es a ->
  exists b, from_description parse_int lines = Ok b /\ same_architecture a b.
Proof.
  intros R F [Fi Fl Ni (rs & r & v & El & Ev & Eo)].
  destruct (read_lines_complete lines es F ([], []) (a_inputs a) (a_layers a) R Fi Fl) as (i & l & E & S1 & S2).
  cbn [fst snd app] in E. pose proof E as E0. apply read_lines_ok in E as (es' & i' & l' & F' & Est & Fi' & Fl').
  cbn [fst snd app] in Est. injection Est as <- <-. assert (es' = es) as -> by (eapply holds_all_unique; eauto).
  apply (Forall2_reserved _ _ R) in Fl'.
  exists (mkArch i l (SStr v)). split; [|constructor; auto].
  unfold from_description. rewrite E0. cbn [bind].
  destruct i as [|i0 i1]; [inversion Fi'; congruence|].
  rewrite El in Fl'. destruct l as [|l0 l1]; [apply Forall2_len in Fl'; rewrite app_length in Fl'; cbn in Fl'; lia|].
  unfold make_arch. now rewrite (last_name_ok _ _ _ _ Fl' Ev).
Qed.

(** The exceptions *)
Definition keeps_lists (o : options) : Prop :=
  option_value o (str "inputs") <> None /\ option_value o (str "devices") <> None /\
  forall vs, option_value o (str "name") <> Some (Many vs).
Lemma oset_keeps o k v : keeps_lists o -> (k = str "name" -> forall vs, v <> Many vs) -> keeps_lists (oset o k v).
Proof.
  intros (H1 & H2 & H3) Hv. unfold keeps_lists. rewrite !oset_value.
  split; [|split].
  - destruct (pystr_eq_dec (str "inputs") k); [discriminate|exact H1].
  - destruct (pystr_eq_dec (str "devices") k); [discriminate|exact H2].
  - intros vs. destruct (pystr_eq_dec (str "name") k) as [E|]; [|apply H3].
    intros [= E']. now apply (Hv (eq_sym E) vs).
Qed.
Lemma append_keeps o k v : keeps_lists o -> k <> str "name" -> option_value o k <> None ->
  match append_to o k v with Ok o' => keeps_lists o' | Err e => e = AttributeError end.
Proof.
  intros H Hk Hn. unfold append_to, lookup. change (oget o k) with (option_value o k).
  destruct (option_value o k) as [[s|vs]|]; cbn [bind]; [reflexivity| |congruence].
  apply oset_keeps; [exact H|congruence].
Qed.
Lemma layer_field_errors o field : keeps_lists o ->
  match read_layer_field parse_int o field with
  | Ok o' => keeps_lists o'
  | Err e => e = InputError \/ (exists v, parse_int v = Err e) \/ e = AttributeError
  end.
Proof.
  intros H. unfold read_layer_field. destruct (split_equals field) as [[n v]|]; [|now left].
  destruct (pystr_eqb n (str "size")) eqn:Es.
  - destruct (parse_int v) eqn:E; cbn [bind]; [|right; left; eauto].
    apply oset_keeps; [exact H|discriminate].
  - destruct (pystr_eqb n (str "input")).
    { assert (A := append_keeps o (str "inputs") v H). destruct (append_to o (str "inputs") v).
      - apply A; [discriminate|apply H].
      - right; right. apply A; [discriminate|apply H]. }
    destruct (pystr_eqb n (str "device")).
    { assert (A := append_keeps o (str "devices") v H). destruct (append_to o (str "devices") v).
      - apply A; [discriminate|apply H].
      - right; right. apply A; [discriminate|apply H]. }
    apply oset_keeps; [exact H|discriminate].
Qed.
Lemma layer_fields_errors toks : forall o, keeps_lists o ->
  match foldM (read_layer_field parse_int) toks o with
  | Ok o' => keeps_lists o'
  | Err e => e = InputError \/ (exists v, parse_int v = Err e) \/ e = AttributeError
  end.
Proof.
  induction toks as [|t toks IH]; intros o H; cbn [foldM]; [exact H|].
  pose proof (layer_field_errors o t H) as L. destruct (read_layer_field parse_int o t); cbn [bind]; [now apply IH|exact L].
Qed.
Lemma layer_start_keeps : keeps_lists layer_start.
Proof. repeat split; vm_compute; discriminate. Qed.
Definition has_name (o : options) : Prop := exists s, option_value o (str "name") = Some (One s).
Lemma read_layer_errors toks :
  match read_layer parse_int toks with
  | Ok o => has_name o
  | Err e => e = InputError \/ (exists v, parse_int v = Err e) \/ e = AttributeError
  end.
Proof.
  unfold read_layer. fold layer_start. pose proof (layer_fields_errors toks layer_start layer_start_keeps) as L.
  destruct (foldM (read_layer_field parse_int) toks layer_start) as [o|e]; cbn [bind]; [|exact L].
  destruct L as (H1 & H2 & H3).
  destruct (has o (str "type")); cbn [negb]; [|now left]. destruct (has o (str "name")) eqn:En; cbn [negb]; [|now left].
  unfold lookup. change (oget o (str "inputs")) with (option_value o (str "inputs")).
  destruct (option_value o (str "inputs")) as [v|]; [|congruence]. cbn [bind].
  destruct (falsy v); [now left|]. apply has_iff in En. unfold has_name.
  destruct (option_value o (str "name")) as [[s|vs]|]; [eauto|now destruct (H3 vs)|congruence].
Qed.
Lemma read_input_errors toks e : read_input toks = Err e -> e = InputError.
Proof.
  unfold read_input. assert (F : forall o e, foldM read_input_field toks o = Err e -> e = InputError).
  { induction toks as [|t toks' IH]; intros o e0; cbn [foldM]; [discriminate|].
    unfold read_input_field at 1. destruct (split_equals t) as [[n v]|]; cbn [bind]; [apply IH|congruence]. }
  destruct (foldM read_input_field toks []) eqn:E; cbn [bind]; [|apply F in E; congruence].
  destruct (has a (str "type")); cbn [negb]; [|congruence]. destruct (has a (str "name")); cbn [negb]; congruence.
Qed.
Lemma from_description_errors lines e : from_description parse_int lines = Err e ->
  e = InputError \/ (exists v, parse_int v = Err e) \/ e = AttributeError.
Proof.
  unfold from_description.
  assert (F : forall lines st, Forall has_name (snd st) ->
    match foldM (read_line parse_int) lines st with
    | Ok st' => Forall has_name (snd st')
    | Err e => e = InputError \/ (exists v, parse_int v = Err e) \/ e = AttributeError
    end).
  { clear. induction lines as [|line lines IH]; intros [inputs layers] H; cbn [foldM]; [exact H|].
    cbn [snd] in H. unfold read_line at 1. destruct (split line) as [|first toks]; [now apply IH|].
    destruct (match first with c :: _ => N.eqb c hash | [] => false end); [now apply IH|].
    destruct (pystr_eqb first (str "input")).
    - destruct (read_input toks) as [o|e] eqn:E; cbn [bind]; [now apply IH|]. apply read_input_errors in E. now left.
    - destruct (pystr_eqb first (str "layer")); [|now left].
      pose proof (read_layer_errors toks) as L. destruct (read_layer parse_int toks) as [o|e0]; cbn [bind]; [|exact L].
      apply IH. cbn [snd]. apply Forall_app. split; [exact H|]. constructor; [exact L|constructor]. }
  specialize (F lines ([], []) (Forall_nil _)).
  destruct (foldM (read_line parse_int) lines ([], [])) as [[inputs layers]|e0]; cbn [bind]; [|intros [= <-]; exact F].
  cbn [snd] in F. destruct inputs as [|i0 i1]; [intros [= <-]; now left|].
  destruct layers as [|l0 l1]; [intros [= <-]; now left|].
  unfold make_arch, last_name. destruct (snoc_cases (l0 :: l1)) as [|(ls & l & E)]; [discriminate|]. rewrite E in F |- *.
  rewrite rev_app_distr. cbn [rev app]. apply Forall_app in F as [_ F]. inversion F as [|x y (s0 & Hs) _]; subst.
  unfold lookup. change (oget l (str "name")) with (option_value l (str "name")). rewrite Hs. cbn [bind].
  destruct (ls ++ [l]) eqn:El; [now destruct ls|discriminate].
Qed.

(** AttributeError needs a field that replaces a list. *)
Definition reserved_field (field : pystr) : Prop :=
  exists n v, is_field field (n, v) /\ In n [str "inputs"; str "devices"].
Definition lists_intact (o : options) : Prop :=
  (exists vs, option_value o (str "inputs") = Some (Many vs)) /\ (exists vs, option_value o (str "devices") = Some (Many vs)).
Lemma intact_oset o k v : lists_intact o -> ~ In k [str "inputs"; str "devices"] -> lists_intact (oset o k v).
Proof.
  intros [H1 H2] Hk. unfold lists_intact. rewrite !oset_value. cbn [In] in Hk.
  destruct (pystr_eq_dec (str "inputs") k); [exfalso; auto|]. destruct (pystr_eq_dec (str "devices") k); [exfalso; auto|]. now split.
Qed.
Lemma append_intact o k v : lists_intact o -> In k [str "inputs"; str "devices"] ->
  exists o', append_to o k v = Ok o' /\ lists_intact o'.
Proof.
  intros [[v1 H1] [v2 H2]] Hk. unfold append_to, lookup. change (oget o k) with (option_value o k).
  destruct Hk as [<-|[<-|[]]]; [rewrite H1|rewrite H2]; cbn [bind]; eexists; (split; [reflexivity|]);
    unfold lists_intact; rewrite !oset_value.
  - destruct (pystr_eq_dec (str "inputs") (str "inputs")); [|congruence].
    destruct (pystr_eq_dec (str "devices") (str "inputs")); [discriminate|]. split; eauto.
  - destruct (pystr_eq_dec (str "inputs") (str "devices")); [discriminate|].
    destruct (pystr_eq_dec (str "devices") (str "devices")); [|congruence]. split; eauto.
Qed.
Lemma fields_attribute toks : forall o, lists_intact o ->
  foldM (read_layer_field parse_int) toks o = Err AttributeError ->
  (exists v, parse_int v = Err AttributeError) \/ exists field, In field toks /\ reserved_field field.
Proof.
  induction toks as [|t toks IH]; intros o I; cbn [foldM]; [discriminate|].
  unfold read_layer_field at 1. destruct (split_equals t) as [[n v]|] eqn:E; [|discriminate].
  apply split_equals_field in E.
  assert (Next : forall o', lists_intact o' -> foldM (read_layer_field parse_int) toks o' = Err AttributeError ->
    (exists v, parse_int v = Err AttributeError) \/ exists field, In field (t :: toks) /\ reserved_field field).
  { intros o' I' H. destruct (IH o' I' H) as [?|(f & Hf & Rf)]; [now left|]. right. exists f. split; [now right|exact Rf]. }
  destruct (pystr_eqb n (str "size")) eqn:Es.
  - apply pystr_eqb_iff in Es. subst n. destruct (parse_int v) eqn:Ez; cbn [bind].
    + apply Next. apply intact_oset; [exact I|]. vm_compute. intuition discriminate.
    + intros [= ->]. left. eauto.
  - destruct (pystr_eqb n (str "input")).
    { destruct (append_intact o (str "inputs") v I) as (o' & -> & I'); [now left|]. cbn [bind]. now apply Next. }
    destruct (pystr_eqb n (str "device")).
    { destruct (append_intact o (str "devices") v I) as (o' & -> & I'); [right; now left|]. cbn [bind]. now apply Next. }
    cbn [bind]. intros H. destruct (in_dec pystr_eq_dec n [str "inputs"; str "devices"]) as [Hn|Hn].
    + right. exists t. split; [now left|]. exists n, v. auto.
    + revert H. apply Next. now apply intact_oset.
Qed.
Lemma layer_start_intact : lists_intact layer_start.
Proof. split; eexists; reflexivity. Qed.
Lemma from_description_attribute lines : from_description parse_int lines = Err AttributeError ->
  (exists v, parse_int v = Err AttributeError) \/
  exists line toks field, In line lines /\ tokens line (str "layer" :: toks) /\ In field toks /\ reserved_field field.
Proof.
  intros H. pose proof (from_description_errors lines AttributeError H) as _.
  assert (F : forall lines st, foldM (read_line parse_int) lines st = Err AttributeError ->
    (exists v, parse_int v = Err AttributeError) \/
    exists line toks field, In line lines /\ tokens line (str "layer" :: toks) /\ In field toks /\ reserved_field field).
  { clear. induction lines as [|line lines IH]; intros [inputs layers]; cbn [foldM]; [discriminate|].
    assert (Next : forall st, foldM (read_line parse_int) lines st = Err AttributeError ->
      (exists v, parse_int v = Err AttributeError) \/
      exists line0 toks field, In line0 (line :: lines) /\ tokens line0 (str "layer" :: toks) /\ In field toks /\ reserved_field field).
    { intros st H. destruct (IH st H) as [?|(l & t & f & Hl & Ht)]; [now left|]. right. exists l, t, f. split; [now right|exact Ht]. }
    unfold read_line at 1. pose proof (split_tokens line) as T. destruct (split line) as [|first toks]; [apply Next|].
    destruct (match first with c :: _ => N.eqb c hash | [] => false end); [apply Next|].
    destruct (pystr_eqb first (str "input")).
    { destruct (read_input toks) as [o|e] eqn:E; cbn [bind]; [apply Next|]. intros [= ->]. apply read_input_errors in E. discriminate. }
    destruct (pystr_eqb first (str "layer")) eqn:El; [|discriminate]. apply pystr_eqb_iff in El. subst first.
    destruct (read_layer parse_int toks) as [o|e] eqn:E; cbn [bind]; [apply Next|]. intros [= ->].
    unfold read_layer in E. fold layer_start in E.
    destruct (foldM (read_layer_field parse_int) toks layer_start) as [o|e] eqn:Ef; cbn [bind] in E.
    - destruct (has o (str "type")); cbn [negb] in E; [|discriminate]. destruct (has o (str "name")); cbn [negb] in E; [|discriminate].
      unfold lookup in E. destruct (oget o (str "inputs")); cbn [bind] in E; [|discriminate]. destruct (falsy v); discriminate.
    - injection E as ->. destruct (fields_attribute toks layer_start layer_start_intact Ef) as [?|(f & Hf & Rf)]; [now left|].
      right. exists line, toks, f. split; [now left|]. auto. }
  revert H. unfold from_description. destruct (foldM (read_line parse_int) lines ([], [])) as [[inputs layers]|e] eqn:E; cbn [bind].
  2: { intros [= ->]. now apply F in E. }
  destruct inputs as [|i0 i1]; [discriminate|]. destruct layers as [|l0 l1]; [discriminate|].
  unfold make_arch. intros H. exfalso. revert H. unfold last_name. destruct (rev (l0 :: l1)); [discriminate|].
  unfold lookup. destruct (oget l (str "name")) as [[s|vs]|]; discriminate.
Qed.
End Layers.
