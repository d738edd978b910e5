(** C67: the decode command. *)
From Coq Require Import QArith Qcanon Sorted Permutation.
From Verif Require Import Base BaseLib Strings ListLib QcLib Dict VocabModel VocabSpec VocabProofs VocabProps
     ScoreProps LatticeModel LatticeSpec SlfModel SlfProofs KaldiModel KaldiSpec KaldiProofs JobProofs LatticeExamples LatticeProps FormatProps
     DecoderModel DecoderSpec DecoderExamples DecoderProps RescoredModel CommandModel CommandSpec CommandProofs.
Local Open Scope nat_scope.

Section Command.
Variable parse_int : pystr -> result Z.
Variable parse_float : pystr -> result Qc.
Variable nlog : Qc -> Qc.
Variable show_num : Qc -> pystr.
Variable show_z : Z -> pystr.
Variable read_file : pystr -> result pystr.
Variable state : Type.
Variable initial_state : state.
Variable net_step : list (nat * nat * nat * state) -> list (Qc * state).
Variable f : nat * nat * nat * state -> Qc * state.
Variable ln : Qc -> Qc.
Variable lin : Qc -> Qc -> Qc -> Qc.
Variable hash : list hword -> Z.
Variable v : vocabulary.
Notation command := (decode_command parse_int parse_float nlog show_num show_z read_file state initial_state net_step ln lin hash v).
Notation run := (run_lattices nlog show_num show_z state initial_state net_step ln lin hash v).
Notation starts c := (started parse_int parse_float nlog read_file c).

Lemma command_started c w2i ys : starts c w2i ys -> command c = run c w2i 0 ys.
Proof.
  intros (Hg & table & paths & E1 & E2 & ->). unfold decode_command. rewrite E1. cbn [bind]. rewrite E2. cbn [bind].
  unfold vocabulary_given in Hg. destruct (c_kaldi_vocabulary c); [reflexivity|].
  destruct (c_format c); [|destruct (Hg (or_introl eq_refl) eq_refl)].
  destruct (c_output c); try reflexivity. destruct (Hg (or_intror eq_refl) eq_refl).
Qed.

(** The command either starts, or writes nothing: without a Kaldi vocabulary, if one
    is needed, it exits, and otherwise the reason is raised. *)
Theorem C67_start c :
  (exists w2i ys, starts c w2i ys) \/
  (~ vocabulary_given c /\ command c = ([], exited)) \/
  (vocabulary_given c /\ exists e, command c = ([], raised e) /\
     (batch_vocabulary parse_int c = Err e \/ job_lattices (c_lattices c) (c_lattice_list c) (c_num_jobs c) (c_job c) = Err e)).
Proof.
  assert (D : {c_kaldi_vocabulary c = None /\ (c_format c = in_kaldi \/ c_output c = out_kaldi)} + {vocabulary_given c}).
  { unfold vocabulary_given. destruct (c_kaldi_vocabulary c); [right; congruence|]. destruct (c_format c); [|left; auto].
    destruct (c_output c); try (right; intros [X|X]; discriminate). left; auto. }
  destruct D as [[D1 D2]|D].
  - right; left. split; [intros H; now apply H|]. unfold decode_command. rewrite D1.
    destruct D2 as [-> | ->]; [reflexivity|]. now destruct (c_format c).
  - destruct (batch_vocabulary parse_int c) as [[w2i table]|e] eqn:E1.
    + destruct (job_lattices (c_lattices c) (c_lattice_list c) (c_num_jobs c) (c_job c)) as [paths|e] eqn:E2.
      * left. exists w2i. eexists. split; [exact D|]. exists table, paths. auto.
      * right; right. split; [exact D|]. exists e. split; [|auto]. unfold decode_command. rewrite E1. cbn [bind]. rewrite E2. cbn [bind].
        unfold vocabulary_given in D. destruct (c_kaldi_vocabulary c); [reflexivity|].
        destruct (c_format c); [|destruct (D (or_introl eq_refl) eq_refl)].
        destruct (c_output c); try reflexivity. destruct (D (or_intror eq_refl) eq_refl).
    + right; right. split; [exact D|]. exists e. split; [|auto]. unfold decode_command. rewrite E1. cbn [bind].
      unfold vocabulary_given in D. destruct (c_kaldi_vocabulary c); [reflexivity|].
      destruct (c_format c); [|destruct (D (or_introl eq_refl) eq_refl)].
      destruct (c_output c); try reflexivity. destruct (D (or_intror eq_refl) eq_refl).
Qed.

Lemma started_consistent c w2i ys : c_format c = in_slf -> starts c w2i ys -> forall a, In (Ok a) ys -> lattice_ok a.
Proof.
  intros Hf (_ & table & paths & _ & _ & ->) a Hin. unfold batch_lattices in Hin. apply in_flat_map in Hin as (path & _ & Hin).
  destruct (read_file path) as [data|]; [|destruct Hin as [Hin|[]]; discriminate]. rewrite Hf in Hin. destruct Hin as [Hin|[]].
  now apply C24_read_consistent in Hin.
Qed.

(** The lines of the output: for every lattice in order, the [c_n_best] best of its
    ranked hypotheses. If the command stops with an exception, the lattice whose
    turn it was could not be read or decoded, and all the lines of those before it
    have been written. *)
Theorem C67_lines c w2i ys written st :
  reachable_vocab v -> step_independent v net_step f ->
  text_output c ->
  starts c w2i ys -> c_format c = in_slf \/ (forall a, In (Ok a) ys -> lattice_ok a) ->
  command c = (written, st) ->
  exists blocks, written = concat blocks /\
    (forall i lines, nth_error blocks i = Some lines -> exists a, nth_error ys i = Some (Ok a) /\
       lines_of_lattice nlog show_num state initial_state f ln lin hash v c (utterance_of i a) a lines) /\
    ((st = finished /\ length blocks = length ys) \/
     exists e y, st = raised e /\ nth_error ys (length blocks) = Some y /\
       (y = Err e \/ exists a, y = Ok a /\ decode state initial_state net_step ln lin hash v (settings nlog c) a = Err e)).
Proof.
  intros Hv Hnet Hc Hs Hok E. rewrite (command_started c w2i ys Hs) in E.
  eapply (run_text nlog show_num show_z state initial_state net_step f ln lin hash v Hv Hnet c w2i 0); try eassumption.
  destruct Hok as [Hf|Hok]; [eapply started_consistent; eassumption|exact Hok].
Qed.

(** The fields of a line can be told apart. *)
Theorem C67_fields c id p (t : token state) :
  text_output c -> one_field id -> (forall x, one_field (show_num x)) -> Forall one_field (link_texts p) ->
  split (line_of nlog show_num state c id (p, t))
  = line_fields show_num (c_output c) id (command_scale nlog c) (tk_ac _ t) (tk_graph _ t) (tk_total _ t) (sentence p).
Proof.
  intros Hc Hid Hshow Hw. unfold line_of.
  assert (S : forall fields, fields <> [] -> Forall one_field fields -> split (join (str " ") fields ++ [newline]) = fields).
  { intros fields Hne F. induction F as [|x xs [Hx1 Hx2] F IH]; [congruence|]. destruct xs as [|y ys].
    - cbn [join]. now apply split_newline.
    - rewrite join_cons, <- !app_assoc. rewrite split_space by assumption. f_equal. apply IH. discriminate. }
  assert (Hs : Forall one_field (sentence p)).
  { constructor; [split; [discriminate|intros ch Hch; vm_compute in Hch; repeat (destruct Hch as [<-|Hch]; [reflexivity|]); destruct Hch]|].
    apply Forall_app. split; [exact Hw|]. constructor; [|constructor].
    split; [discriminate|]. intros ch Hch. vm_compute in Hch. repeat (destruct Hch as [<-|Hch]; [reflexivity|]). destruct Hch. }
  apply S; destruct Hc as [->|[->| ->]]; cbn [line_fields].
  - discriminate.
  - intros C. apply app_eq_nil in C as [_ C]. discriminate.
  - discriminate.
  - now constructor.
  - apply Forall_app. split; [exact Hs|]. constructor; [|constructor]. split; [discriminate|].
    intros ch Hch. change (str "(" ++ id ++ str ")") with (40%N :: id ++ [41%N]) in Hch.
    destruct Hch as [<-|Hch]; [reflexivity|]. apply in_app_or in Hch as [Hch|[<-|[]]]; [now apply Hid|reflexivity].
  - apply Forall_cons; [exact Hid|]. do 3 (apply Forall_cons; [apply Hshow|]). apply Forall_cons; [|exact Hs].
    split; [apply show_int_nonempty|]. intros ch Hch. apply show_uint_digit in Hch. cbn in Hch.
    repeat (destruct Hch as [<-|Hch]; [reflexivity|]). destruct Hch.
Qed.

(** Relative pruning does nothing. *)
Theorem C67_prune_relative_ignored c r t b : command (with_relative c r t b) = command c.
Proof.
  assert (D : forall a, decode state initial_state net_step ln lin hash v (decoding_options nlog (with_relative c r t b)) a
                      = decode state initial_state net_step ln lin hash v (decoding_options nlog c) a) by (intros a; exact eq_refl).
  assert (W : forall id ts, write_tokens nlog show_num state v (with_relative c r t b) id ts = write_tokens nlog show_num state v c id ts).
  { intros id ts. induction ts as [|x ts IH]; [reflexivity|]. cbn [write_tokens]. now rewrite IH. }
  assert (R : forall w2i ys n, run (with_relative c r t b) w2i n ys = run c w2i n ys).
  { intros w2i ys. induction ys as [|[a|e] ys IH]; intros n; [reflexivity| |reflexivity]. cbn [run_lattices]. rewrite IH.
    unfold process_lattice. rewrite D. destruct (decode _ _ _ _ _ _ _ _ (named n a)) as [[ts ds]|]; [|reflexivity].
    rewrite W. reflexivity. }
  unfold decode_command, batch_vocabulary. cbn [with_relative c_kaldi_vocabulary c_format c_output c_lattices c_lattice_list c_num_jobs c_job].
  destruct (c_kaldi_vocabulary c), (c_format c), (c_output c); try reflexivity; destruct (bind _ _) as [[? ?]|]; try reflexivity; apply R.
Qed.

(** ** Jobs *)
Lemma one_job lattices lines : job_lattices lattices lines 1 0 = Ok (lattice_paths lattices lines).
Proof.
  destruct (C22_job_contents lattices lines 1 0) as (l & -> & H); try lia. f_equal. apply nth_error_ext. intros k. rewrite H. f_equal.
  change (Z.to_nat 0) with 0. change (Z.to_nat 1) with 1. lia.
Qed.
Lemma process_job c n j w2i a :
  process_lattice nlog show_num show_z state initial_state net_step ln lin hash v (with_job c n j) w2i a
  = process_lattice nlog show_num show_z state initial_state net_step ln lin hash v c w2i a.
Proof.
  unfold process_lattice. change (decoding_options nlog (with_job c n j)) with (decoding_options nlog c).
  destruct (decode _ _ _ _ _ _ _ _ _) as [[ts ds]|]; [|reflexivity].
  assert (W : forall id ts, write_tokens nlog show_num state v (with_job c n j) id ts = write_tokens nlog show_num state v c id ts).
  { intros id xs. induction xs as [|x xs IH]; [reflexivity|]. cbn [write_tokens]. now rewrite IH. }
  rewrite W. reflexivity.
Qed.
Lemma job_start c n j w2i table paths : vocabulary_given c -> batch_vocabulary parse_int c = Ok (w2i, table) ->
  job_lattices (c_lattices c) (c_lattice_list c) n j = Ok paths ->
  command (with_job c n j)
  = run (with_job c n j) w2i 0 (batch_lattices parse_int parse_float nlog read_file (c_format c) table paths).
Proof.
  intros Hg Hb Hp. apply command_started. split; [exact Hg|]. exists table, paths. auto.
Qed.
Lemma succeeds_job c n j w2i y : succeeds nlog show_num show_z state initial_state net_step ln lin hash v (with_job c n j) w2i y
  <-> succeeds nlog show_num show_z state initial_state net_step ln lin hash v c w2i y.
Proof. unfold succeeds. split; intros (a & ls & E & P); exists a, ls; (split; [exact E|]); [rewrite process_job in P|rewrite process_job]; exact P. Qed.
Lemma block_job c n j w2i ys : flat_map (block nlog show_num show_z state initial_state net_step ln lin hash v (with_job c n j) w2i) ys
  = flat_map (block nlog show_num show_z state initial_state net_step ln lin hash v c w2i) ys.
Proof. induction ys as [|[a|e] ys IH]; [reflexivity| |exact IH]. cbn [flat_map]. rewrite IH. unfold block. now rewrite process_job. Qed.

Lemma batch_concat format table (jobs : list (list pystr)) :
  batch_lattices parse_int parse_float nlog read_file format table (concat jobs)
  = concat (map (batch_lattices parse_int parse_float nlog read_file format table) jobs).
Proof. induction jobs as [|p jobs IH]; [reflexivity|]. cbn [concat map]. rewrite <- IH. unfold batch_lattices. apply flat_map_app. Qed.
Lemma permutation_flat_map {A B} (g : A -> list B) l l' : Permutation l l' -> Permutation (flat_map g l) (flat_map g l').
Proof.
  induction 1 as [|x l l' _ IH|x y l|l1 l2 l3 _ IH1 _ IH2]; cbn [flat_map].
  - constructor.
  - now apply Permutation_app_head.
  - rewrite !app_assoc. apply Permutation_app_tail, Permutation_app_comm.
  - eapply Permutation_trans; eassumption.
Qed.

(** If every lattice has an utterance ID, then [n] jobs finish if and only if one job
    that processes everything does, and together they write the same lines (or
    lattices). *)
Theorem C67_jobs c n : (1 <= n)%Z -> vocabulary_given c ->
  all_have_ids parse_int parse_float nlog read_file c ->
  let outputs := map (fun j => command (with_job c n (Z.of_nat j))) (seq 0 (Z.to_nat n)) in
  (Forall (fun x => snd x = finished) outputs <-> snd (command (with_job c 1 0)) = finished) /\
  (Forall (fun x => snd x = finished) outputs -> Permutation (concat (map fst outputs)) (fst (command (with_job c 1 0)))).
Proof.
  intros Hn Hg Hid outputs.
  destruct (batch_vocabulary parse_int c) as [[w2i table]|e] eqn:Eb.
  2: { assert (X : forall m j, command (with_job c m j) = ([], raised e)).
       { intros m j. unfold decode_command. change (batch_vocabulary parse_int (with_job c m j)) with (batch_vocabulary parse_int c). rewrite Eb. cbn [bind].
         unfold vocabulary_given in Hg. cbn [with_job c_kaldi_vocabulary c_format c_output].
         destruct (c_kaldi_vocabulary c); [reflexivity|]. destruct (c_format c); [|destruct (Hg (or_introl eq_refl) eq_refl)].
         destruct (c_output c); try reflexivity. destruct (Hg (or_intror eq_refl) eq_refl). }
       unfold outputs. rewrite X.
       assert (N : ~ Forall (fun x : list pystr * status => snd x = finished) (map (fun j => command (with_job c n (Z.of_nat j))) (seq 0 (Z.to_nat n)))).
       { destruct (Z.to_nat n) as [|k] eqn:Ek; [lia|]. cbn [seq map]. intros F. inversion F as [|? ? F1]; subst. rewrite X in F1. discriminate. }
       split; [split; [intros F; destruct (N F)|discriminate]|intros F; destruct (N F)]. }
  destruct (C22_partition (c_lattices c) (c_lattice_list c) n Hn) as (jobs & Ej & Pj).
  set (batch := batch_lattices parse_int parse_float nlog read_file (c_format c) table).
  set (blk := block nlog show_num show_z state initial_state net_step ln lin hash v c w2i).
  set (suc := succeeds nlog show_num show_z state initial_state net_step ln lin hash v c w2i).
  assert (Ids : Forall has_id (batch (lattice_paths (c_lattices c) (c_lattice_list c)))).
  { apply Forall_forall. intros y Hy a ->. exact (Hid w2i table Eb a Hy). }
  assert (Pb : Permutation (concat (map batch jobs)) (batch (lattice_paths (c_lattices c) (c_lattice_list c)))).
  { unfold batch. rewrite <- batch_concat. now apply permutation_flat_map. }
  assert (Idj : Forall (fun p => Forall has_id (batch p)) jobs).
  { apply Forall_forall. intros p Hp. apply Forall_forall. intros y Hy. rewrite Forall_forall in Ids. apply Ids.
    eapply Permutation_in; [exact Pb|]. apply in_concat. exists (batch p). split; [now apply in_map|exact Hy]. }
  assert (Eo : outputs = map (fun jp => run (with_job c n (Z.of_nat (fst jp))) w2i 0 (batch (snd jp))) (combine (seq 0 (Z.to_nat n)) jobs)).
  { unfold outputs. clear -Ej Eb Hg. revert jobs Ej. induction (seq 0 (Z.to_nat n)) as [|j js IH]; intros jobs Ej; cbn [mapM] in Ej; [reflexivity|].
    destruct (job_lattices _ _ _ _) as [p|] eqn:Ep in Ej; cbn [bind] in Ej; [|discriminate].
    destruct (mapM _ js) as [ps|] eqn:Eps; cbn [bind] in Ej; [|discriminate]. injection Ej as <-. cbn [map combine fst snd].
    f_equal; [|now apply IH]. now apply job_start. }
  assert (Lj : length jobs = Z.to_nat n).
  { apply mapM_inv in Ej. clear -Ej. rewrite <- (seq_length (Z.to_nat n) 0). induction Ej; cbn [length]; auto. }
  assert (One : command (with_job c 1 0) = run (with_job c 1 0) w2i 0 (batch (lattice_paths (c_lattices c) (c_lattice_list c)))).
  { apply job_start; [exact Hg|exact Eb|apply one_job]. }
  assert (Fin : forall j m ys, Forall has_id ys -> (snd (run (with_job c m j) w2i 0 ys) = finished <-> Forall suc ys) /\
                 (snd (run (with_job c m j) w2i 0 ys) = finished -> fst (run (with_job c m j) w2i 0 ys) = flat_map blk ys)).
  { intros j m ys Hi.
    assert (G : snd (run (with_job c m j) w2i 0 ys) = finished -> Forall suc ys /\ fst (run (with_job c m j) w2i 0 ys) = flat_map blk ys).
    { intros E. destruct (run (with_job c m j) w2i 0 ys) as [w st] eqn:Er. cbn [fst snd] in *. subst st. apply run_finished in Er as [H1 H2]; [|exact Hi].
      rewrite block_job in H2. split; [|exact H2]. rewrite Forall_forall in *. intros y Hy. apply (succeeds_job c m j), H1, Hy. }
    split; [|intros E; now apply G]. split; [intros E; now apply G|]. intros F. rewrite run_all_succeed; [reflexivity|exact Hi|].
    rewrite Forall_forall in *. intros y Hy. apply (succeeds_job c m j), F, Hy. }
  assert (Comb : forall js, length js = length jobs -> 
     (Forall (fun x : list pystr * status => snd x = finished) (map (fun jp => run (with_job c n (Z.of_nat (fst jp))) w2i 0 (batch (snd jp))) (combine js jobs))
      <-> Forall suc (concat (map batch jobs))) /\
     (Forall (fun x : list pystr * status => snd x = finished) (map (fun jp => run (with_job c n (Z.of_nat (fst jp))) w2i 0 (batch (snd jp))) (combine js jobs)) ->
      concat (map fst (map (fun jp => run (with_job c n (Z.of_nat (fst jp))) w2i 0 (batch (snd jp))) (combine js jobs)))
      = flat_map blk (concat (map batch jobs)))).
  { clear -Idj Fin. induction Idj as [|p jobs Hp _ IH]; intros js L; [destruct js; [|discriminate]; cbn; repeat split; auto; constructor|].
    destruct js as [|j js]; [discriminate|]. injection L as L. specialize (IH js L). destruct IH as [I1 I2]. cbn [combine map concat fst snd].
    destruct (Fin (Z.of_nat j) n (batch p) Hp) as [F1 F2]. split.
    - rewrite Forall_app, Forall_cons_iff, F1, I1. reflexivity.
    - intros F. apply Forall_cons_iff in F as [Fa Fb]. rewrite (F2 Fa), (I2 Fb), flat_map_app. reflexivity. }
  destruct (Comb (seq 0 (Z.to_nat n))) as [K1 K2]; [now rewrite seq_length|].
  rewrite Eo, One. destruct (Fin 0%Z 1%Z _ Ids) as [F1 F2].
  assert (Pf : Forall suc (concat (map batch jobs)) <-> Forall suc (batch (lattice_paths (c_lattices c) (c_lattice_list c)))).
  { split; intros F; eapply Permutation_Forall; try eassumption. now apply Permutation_sym. }
  split; [rewrite K1, F1; exact Pf|]. intros F. rewrite (K2 F), F2; [now apply permutation_flat_map|]. apply F1, Pf, K1, F.
Qed.

(** The lattices of Kaldi archives always have an ID. *)
Theorem C67_kaldi_ids c : c_format c = in_kaldi -> all_have_ids parse_int parse_float nlog read_file c.
Proof.
  intros Hf w2i table _ a Hin. unfold batch_lattices in Hin. apply in_flat_map in Hin as (path & _ & Hin). rewrite Hf in Hin.
  destruct (read_file path) as [data|]; [|destruct Hin as [Hin|[]]; discriminate]. apply in_map_iff in Hin as (ls & E & _).
  unfold read_kaldi in E. destruct ls as [|first rest]; [discriminate|]. destruct (foldM _ _ _) as [st|]; cbn [bind] in E; [|discriminate].
  destruct (kg_initial st); [|discriminate]. destruct (py_position _ _); cbn [bind] in E; [|discriminate]. injection E as <-. discriminate.
Qed.

(** ** Rescored lattices *)

(** Each lattice of the SLF output is the rescored lattice with its ID. If words and
    IDs are written without special characters, reading it gives back the links,
    and the scales that were given as arguments, as they were given. *)
Theorem C67_slf_output c w2i ys written st :
  reachable_vocab v -> step_independent v net_step f -> number_text parse_int parse_float show_num ->
  c_output c = out_slf -> starts c w2i ys -> (forall a, In (Ok a) ys -> lattice_ok a) ->
  command c = (written, st) ->
  (st = finished -> length written = length ys) /\
  forall i text, nth_error written i = Some text ->
  exists a tokens dropped r, nth_error ys i = Some (Ok a) /\
    decode state initial_state net_step ln lin hash v (settings nlog c) a = Ok (tokens, dropped) /\
    rescored_lattice state v (named i a) tokens dropped = Ok r /\
    ((forall l w, In l (a_links a) -> k_word l = Some w -> plain w /\ is_null_word w = false) -> quotable (utterance_of i a) ->
     exists b, read_slf parse_int parse_float nlog text = Ok b /\ lattice_ok b /\
       a_links b = map (fun l => mkLink (k_start l) (k_end l) (k_word l) (k_ac l) (k_lm l) []) (a_links r) /\
       a_initial b = a_initial r /\ length (a_nodes b) = length (a_nodes r) /\ (forall j, is_final_node b j = is_final_node r j) /\
       a_utterance b = Some (utterance_of i a) /\ a_lm_scale b = c_lm_scale c /\ a_wi_penalty b = c_wi_penalty c).
Proof.
  intros Hv Hnet Nt Ho Hs Hok E. rewrite (command_started c w2i ys Hs) in E.
  destruct (run_general _ _ _ _ _ _ _ _ _ _ _ _ _ _ _ _ E) as (blocks & part & -> & B & S).
  assert (P : forall i a lines e, process_lattice nlog show_num show_z state initial_state net_step ln lin hash v c w2i (named i a) = (lines, e) ->
     (exists e', e = Some e' /\ lines = []) \/
     exists tokens dropped r, e = None /\ lines = [write_slf show_num (with_scales c r)] /\
       decode state initial_state net_step ln lin hash v (settings nlog c) a = Ok (tokens, dropped) /\
       rescored_lattice state v (named i a) tokens dropped = Ok r).
  { intros i a lines e. unfold process_lattice. rewrite decode_named, Ho.
    destruct (decode _ _ _ _ _ _ _ _ a) as [[tokens dropped]|e']; [|intros [= <- <-]; eauto].
    destruct (rescored_lattice _ _ _ _ _) as [r|e'] eqn:Er; intros [= <- <-]; [right; eauto 9|eauto]. }
  assert (Pp : part = []).
  { destruct S as [(_ & -> & _)|(e & y & _ & _ & [[_ ->]|(a & _ & Ep)])]; try reflexivity.
    destruct (P _ _ _ _ Ep) as [(e' & _ & ->)|(t & d & r & C & _)]; [reflexivity|discriminate]. }
  subst part. rewrite app_nil_r.
  assert (Bl : forall i lines, nth_error blocks i = Some lines -> exists text, lines = [text]).
  { intros i lines Hi. destruct (B i lines Hi) as (a & _ & Ep). destruct (P _ _ _ _ Ep) as [(e' & C & _)|(t & d & r & _ & -> & _)]; [discriminate|eauto]. }
  assert (Sing : forall bs, (forall i lines, nth_error bs i = Some lines -> exists text : pystr, lines = [text]) ->
            length (concat bs) = length bs /\ forall i text, nth_error (concat bs) i = Some text -> nth_error bs i = Some [text]).
  { clear. induction bs as [|b bs IH]; intros H; [split; [reflexivity|intros [|i] ? ?; discriminate]|].
    destruct (H 0 b eq_refl) as [t ->]. destruct IH as [I1 I2]; [intros i ls Hi; now apply (H (S i))|].
    cbn [concat app length]. split; [now rewrite I1|]. intros [|i] text Hi; cbn [nth_error] in *; [now injection Hi as <-|auto]. }
  destruct (Sing blocks Bl) as [L N]. split.
  - intros ->. rewrite L. destruct S as [(_ & _ & H)|(e & y & C & _)]; [exact H|discriminate].
  - intros i text Hi. apply N in Hi. destruct (B i _ Hi) as (a & Ha & Ep). cbn [plus] in Ep.
    destruct (P _ _ _ _ Ep) as [(e' & C & _)|(t & d & r & _ & Et & Ed & Er)]; [discriminate|]. injection Et as ->.
    exists a, t, d, r. split; [exact Ha|]. split; [exact Ed|]. split; [exact Er|]. intros Hw Hq.
    eapply read_back_slf; try eassumption. apply Hok. eapply nth_error_In, Ha.
Qed.
End Command.
Print Assumptions C67_start.
Print Assumptions C67_lines.
Print Assumptions C67_fields.
Print Assumptions C67_prune_relative_ignored.
Print Assumptions C67_jobs.
Print Assumptions C67_kaldi_ids.
Print Assumptions C67_slf_output.

(** ** Examples *)
Definition ex_nlog (x : Qc) : Qc := q 2 1.
(** A file that does not name the utterance *)
Definition ex_no_id : pystr :=
  concat (map (fun l => l ++ [newline]) [str "N=2 L=1"; str "I=0"; str "I=1"; str "J=0 S=0 E=1 W=a a=-1/1 l=-1/2"]).
Definition ex_files (path : pystr) : result pystr :=
  if pystr_eqb path (str "one") then Ok (write_slf ex_show_num ex_lattice)
  else if pystr_eqb path (str "two") then Ok ex_no_id
  else Err InputError.
Definition ex_command (output : output_format) (n : Z) (paths : list pystr) (base : option positive) (wi : option Qc) : arguments :=
  mkArguments paths [] in_slf None 1 0 output n (q 1 2) None wi base None false false false None None None None 0%Z 0%Qc.
Definition ex_decode : arguments -> list pystr * status :=
  decode_command ex_parse_int ex_parse_float ex_nlog ex_show_num ex_show_z ex_files nat 0 ex_net_step ex_ln ex_lin ex_hash ex_vocab.
Definition ex_started : arguments -> list (pystr * Z) -> list (result lattice) -> Prop :=
  started ex_parse_int ex_parse_float ex_nlog ex_files.

Lemma ex_read : batch_lattices ex_parse_int ex_parse_float ex_nlog ex_files in_slf [] [str "one"] = [Ok ex_lattice].
Proof.
  unfold batch_lattices. cbn [flat_map]. change (ex_files (str "one")) with (Ok (write_slf ex_show_num ex_lattice)). cbv iota.
  rewrite (C24_slf_round_trip ex_parse_int ex_parse_float ex_nlog ex_show_num ex_lattice ex_number_text ex_slf_writable). reflexivity.
Qed.
(** Decoding a lattice with a name, one without and a file that does not exist: three
    lines are written, the second lattice is called "1", then opening the file fails. *)
Example C67_lines_example :
  reachable_vocab ex_vocab /\ step_independent ex_vocab ex_net_step ex_step /\
  text_output (ex_command out_full 2 [str "one"; str "two"; str "nope"] None None) /\
  (exists ys, ex_started (ex_command out_full 2 [str "one"; str "two"; str "nope"] None None) [] ys /\
     forall a, In (Ok a) ys -> lattice_ok a) /\
  ex_decode (ex_command out_full 2 [str "one"; str "two"; str "nope"] None None)
  = (map (fun l => l ++ [newline])
       [str "utt1 -65/18 -141/10 -797/45 3 <s> c </s>"; str "utt1 -19/9 -6203/385 -63142/3465 3 <s> b </s>";
        str "1 -1/1 -53/40 -93/40 3 <s> a </s>"], raised InputError).
Proof.
  split; [apply ex_vocab_reachable|]. split; [apply ex_step_independent|]. split; [right; right; reflexivity|]. split.
  - set (c := ex_command out_full 2 [str "one"; str "two"; str "nope"] None None).
    assert (Hs : ex_started c [] (batch_lattices ex_parse_int ex_parse_float ex_nlog ex_files in_slf [] [str "one"; str "two"; str "nope"])).
    { split; [intros [C|C]; discriminate|]. eexists _, _. split; [reflexivity|]. split; [vm_compute; reflexivity|reflexivity]. }
    eexists. split; [exact Hs|]. exact (started_consistent _ _ _ _ c _ _ eq_refl Hs).
  - vm_compute. reflexivity.
Qed.
(** The hypotheses of exhaustive decoding are met. *)
Example C67_exhaustive_example :
  exhaustive ex_nlog nat 0 ex_step ex_ln ex_lin ex_hash ex_vocab (ex_command out_full 2 [str "one"] None None) ex_lattice.
Proof.
  repeat (split; [reflexivity|]). split; [|exact (conj (proj1 (proj2 C20_example)) (proj1 (proj2 (proj2 C20_example))))]. intros h h' _ _ E. now apply ex_hash_inj.
Qed.
(** A negative number of hypotheses leaves out the worst ones. *)
Example C67_n_best_example : ex_decode (ex_command out_trn (-1) [str "one"] None None)
  = (map (fun l => l ++ [newline]) [str "<s> c </s> (utt1)"; str "<s> b </s> (utt1)"], finished) /\
  length (fst (ex_decode (ex_command out_trn 5 [str "one"] None None))) = 3 /\
  fst (ex_decode (ex_command out_trn 0 [str "one"] None None)) = [].
Proof. vm_compute. auto. Qed.

(** Without IDs in the lattices the lines of the jobs are not those of one job: a
    lattice is named by its number in the job, so that two lattices have the same ID. *)
Theorem C67_job_ids_refuted : exists c,
  ex_decode (with_job c 2 0) = ([str "0 <s> a </s>" ++ [newline]], finished) /\
  ex_decode (with_job c 2 1) = ([str "0 <s> a </s>" ++ [newline]], finished) /\
  ex_decode (with_job c 1 0) = ([str "0 <s> a </s>" ++ [newline]; str "1 <s> a </s>" ++ [newline]], finished).
Proof. exists (ex_command out_ref 1 [str "two"; str "two"] None None). vm_compute. auto. Qed.
Print Assumptions C67_job_ids_refuted.
(** With IDs they are. *)
Example C67_jobs_example :
  vocabulary_given (ex_command out_ref 1 [str "one"; str "one"] None None) /\
  all_have_ids ex_parse_int ex_parse_float ex_nlog ex_files (ex_command out_ref 1 [str "one"; str "one"] None None) /\
  map (fun j => snd (ex_decode (with_job (ex_command out_ref 1 [str "one"; str "one"] None None) 2 j))) [0%Z; 1%Z] = [finished; finished].
Proof.
  split; [intros [C|C]; discriminate|]. split; [|vm_compute; reflexivity].
  intros w2i table E a Ha. injection E as _ <-. cbn [ex_command c_lattices c_lattice_list c_format] in Ha.
  change (lattice_paths [str "one"; str "one"] []) with ([str "one"] ++ [str "one"]) in Ha.
  unfold batch_lattices in Ha. rewrite flat_map_app in Ha.
  pose proof ex_read as R. unfold batch_lattices in R. rewrite R in Ha. cbn [app In] in Ha.
  destruct Ha as [Ha|[Ha|[]]]; injection Ha as <-; discriminate.
Qed.

(** The rescored lattice does not say with which scale and penalty it was made:
    without --lm-scale, the scale of the lattice is used but not written, and the
    penalty that is given in base B is written as if it were a natural logarithm. *)
Theorem C67_scales_refuted : exists c a text b,
  ex_started c [] [Ok a] /\ ex_decode c = ([text], finished) /\
  read_slf ex_parse_int ex_parse_float ex_nlog text = Ok b /\ 
  scale_of (settings ex_nlog c) a = q 12 1 /\ a_lm_scale b = None /\
  penalty_of (settings ex_nlog c) a = q 2 3 /\ a_wi_penalty b = Some (q 1 3).
Proof.
  exists (ex_command out_slf 1 [str "one"] (Some 10%positive) (Some (q 1 3))), ex_lattice.
  destruct (ex_decode (ex_command out_slf 1 [str "one"] (Some 10%positive) (Some (q 1 3)))) as [[|text [|]] []] eqn:E;
    try (vm_compute in E; discriminate). exists text.
  assert (Hs : ex_started (ex_command out_slf 1 [str "one"] (Some 10%positive) (Some (q 1 3))) [] [Ok ex_lattice]).
  { split; [intros [C|C]; discriminate|]. exists [], [str "one"]. split; [reflexivity|]. split; [vm_compute; reflexivity|symmetry; apply ex_read]. }
  destruct (C67_slf_output ex_parse_int ex_parse_float ex_nlog ex_show_num ex_show_z ex_files nat 0 ex_net_step ex_step ex_ln ex_lin ex_hash ex_vocab
             (ex_command out_slf 1 [str "one"] (Some 10%positive) (Some (q 1 3))) _ _ _ _ ex_vocab_reachable (ex_step_independent _) ex_number_text eq_refl Hs
             ltac:(intros a [Ha|[]]; injection Ha as <-; apply ex_lattice_ok) E) as [_ H].
  destruct (H 0 text eq_refl) as (a & t & d & r & Ha & _ & _ & G). injection Ha as <-.
  destruct G as (b & Rb & _ & _ & _ & _ & _ & _ & S1 & S2).
  - apply ex_slf_writable.
  - destruct ex_slf_writable as [_ (u & Hu & Q) _ _]. injection Hu as <-. exact Q.
  - exists b. split; [exact Hs|]. split; [reflexivity|]. split; [exact Rb|]. rewrite S1, S2. repeat split.
Qed.
Print Assumptions C67_scales_refuted.
