(** Properties of lattices: order of nodes, jobs, archives, file formats. *)
From Coq Require Import QArith Qcanon Permutation.
From Verif Require Import Base Strings Dict LatticeModel SlfModel KaldiModel LatticeSpec
     SortProofs JobProofs GraphProofs SlfProofs KaldiProofs LatticeExamples.
Local Open Scope nat_scope.

(** ** C20: order of nodes *)

(** Whenever an order is returned, it starts from the initial node, contains
    exactly the orderable nodes, each once, each after all its predecessors, and
    each time a node with the earliest time is selected of those that can come
    next. *)
Theorem C20_topological_order a R : lattice_ok a -> sorted_nodes a = Ok R ->
  NoDup R /\ (exists t, R = a_initial a :: t) /\
  (forall v, In v R <-> orderable a v) /\
  (forall p v t, R = p ++ v :: t -> p <> [] ->
     (forall u, edge a u v -> In u p) /\
     (forall w, ready a p w -> not_later (time_of a v) (time_of a w))).
Proof.
  intros H E. destruct (sorted_nodes_ok a H R E) as (H1 & H2 & _ & H3 & H4 & _). auto.
Qed.
Print Assumptions C20_topological_order.

(** If the lattice has no cycle and no unreachable node, all nodes are returned. *)
Theorem C20_acyclic_complete a : lattice_ok a ->
  ~ cyclic a -> (forall v, v < length (a_nodes a) -> reachable_node a v) ->
  exists R, sorted_nodes a = Ok R /\ length R = length (a_nodes a) /\
            forall v, v < length (a_nodes a) <-> In v R.
Proof.
  intros H Hc Hr. destruct (acyclic_sorted a H Hc Hr) as (R & E & L). exists R. split; [exact E|]. split; [exact L|].
  destruct (sorted_nodes_ok a H R E) as (_ & _ & H1 & H2 & _). intros v. split; [|apply H1].
  intros Hv. apply H2. now apply acyclic_orderable.
Qed.
Print Assumptions C20_acyclic_complete.

Example C20_example : lattice_ok ex_lattice /\ ~ cyclic ex_lattice /\
  (forall v, v < length (a_nodes ex_lattice) -> reachable_node ex_lattice v) /\
  sorted_nodes ex_lattice = Ok [0; 1; 2; 3].
Proof.
  assert (E : sorted_nodes ex_lattice = Ok [0; 1; 2; 3]) by (vm_compute; reflexivity).
  split; [apply ex_lattice_ok|]. split; [|split; [|exact E]].
  - exact (sorted_complete_acyclic _ ex_lattice_ok _ E eq_refl).
  - assert (E01 : walk ex_lattice 0 1) by (apply walk_edge; exists (nth 0 ex_links (mkLink 0 0 None None None [])); cbn; tauto).
    assert (E02 : walk ex_lattice 0 2) by (apply walk_edge; exists (nth 2 ex_links (mkLink 0 0 None None None [])); cbn; tauto).
    assert (E23 : walk ex_lattice 2 3) by (apply walk_edge; exists (nth 4 ex_links (mkLink 0 0 None None None [])); cbn; tauto).
    intros v Hv. cbn in Hv. destruct v as [|[|[|[|v]]]]; [now left|now right|now right| |lia].
    right. now apply (walk_trans _ _ 2).
Qed.

(** ** C21: cycles *)

(** An error is reported if and only if the initial node has a predecessor and all
    its predecessors can be ordered, and the error is an input error. *)
Theorem C21_error_condition a : lattice_ok a ->
  (forall e, sorted_nodes a = Err e -> e = InputError) /\
  (sorted_nodes a = Err InputError <->
   (exists u, edge a u (a_initial a)) /\ forall u, edge a u (a_initial a) -> orderable a u).
Proof. intros H. split; [now apply sorted_nodes_only_error|now apply sorted_nodes_err]. Qed.
Print Assumptions C21_error_condition.

(** An order of all nodes is never returned for a lattice with a cycle. *)
Theorem C21_complete_order_acyclic a R : lattice_ok a ->
  sorted_nodes a = Ok R -> length R = length (a_nodes a) -> ~ cyclic a.
Proof. intros H. now apply sorted_complete_acyclic. Qed.
Print Assumptions C21_complete_order_acyclic.

(** A lattice with a cycle 1 -> 2 -> 1 that is reachable from the initial node *)
Definition cyclic_lattice : lattice :=
  mkLattice [mkNode [0] [] None false; mkNode [1] [0; 2] None false;
             mkNode [2; 3] [1] None false; mkNode [] [3] None true]
            [mkLink 0 1 (Some (str "a")) None None []; mkLink 1 2 (Some (str "b")) None None [];
             mkLink 2 1 None None None []; mkLink 2 3 None None None []]
            0 (Some (str "u")) None None.
Theorem C21_cycle_rejected_refuted :
  exists a v R, lattice_ok a /\ reachable_node a v /\ walk a v v /\ sorted_nodes a = Ok R.
Proof.
  exists cyclic_lattice, 1, [0]. split; [|split; [|split; [|vm_compute; reflexivity]]].
  - split; [split|cbn; lia].
    + intros l Hl. cbn in Hl. destruct Hl as [<-|[<-|[<-|[<-|[]]]]]; cbn; lia.
    + intros i n H. do 4 (destruct i as [|i]; [injection H as <-; reflexivity|]). destruct i; discriminate.
    + intros i n H. do 4 (destruct i as [|i]; [injection H as <-; reflexivity|]). destruct i; discriminate.
  - right. apply walk_edge. exists (mkLink 0 1 (Some (str "a")) None None []). cbn. tauto.
  - apply (walk_step _ _ 2).
    + exists (mkLink 1 2 (Some (str "b")) None None []). cbn. tauto.
    + apply walk_edge. exists (mkLink 2 1 None None None []). cbn. tauto.
Qed.
Print Assumptions C21_cycle_rejected_refuted.

(** A lattice that is rejected: 0 -> 1 -> 0 *)
Example C21_example :
  let a := mkLattice [mkNode [0] [1] None false; mkNode [1] [0] None true]
                     [mkLink 0 1 None None None []; mkLink 1 0 None None None []] 0 None None None in
  sorted_nodes a = Err InputError.
Proof. vm_compute. reflexivity. Qed.

(** ** C22: jobs *)

(** Job j of n processes the lattices at positions j, j + n, j + 2n, ... *)
Theorem C22_job_contents lattices list_lines n j : (1 <= n)%Z -> (0 <= j < n)%Z ->
  exists l, job_lattices lattices list_lines n j = Ok l /\
  forall k, nth_error l k
            = nth_error (lattice_paths lattices list_lines) (Z.to_nat j + k * Z.to_nat n).
Proof. apply job_lattices_ok. Qed.
Print Assumptions C22_job_contents.

(** All jobs together process every lattice exactly once. *)
Theorem C22_partition lattices list_lines n : (1 <= n)%Z ->
  exists jobs,
    mapM (fun j => job_lattices lattices list_lines n (Z.of_nat j)) (seq 0 (Z.to_nat n)) = Ok jobs /\
    Permutation (concat jobs) (lattice_paths lattices list_lines).
Proof. apply jobs_perm. Qed.
Print Assumptions C22_partition.

Theorem C22_sizes lattices list_lines n j j' l l' :
  job_lattices lattices list_lines n j = Ok l -> job_lattices lattices list_lines n j' = Ok l' ->
  length l <= S (length l').
Proof. apply job_sizes_differ. Qed.
Print Assumptions C22_sizes.

Theorem C22_invalid_job lattices list_lines n j :
  job_lattices lattices list_lines n j = Err ValueError <-> ~ ((1 <= n)%Z /\ (0 <= j < n)%Z).
Proof. apply job_lattices_err. Qed.
Print Assumptions C22_invalid_job.

Example C22_example :
  map (job_lattices [str "a"; str " b "] [str "c"; []; str "d"; str "e"] 2) [0; 1]%Z
  = [Ok [str "a"; str "c"; str "e"]; Ok [str "b"; str "d"]].
Proof. vm_compute. reflexivity. Qed.

(** ** C23: archives *)
Theorem C23_archive_blocks text blocks :
  archive (file_lines text) blocks -> kaldi_archive (file_lines text) [] = blocks.
Proof. apply archive_ok. Qed.
Print Assumptions C23_archive_blocks.

Theorem C23_every_archive text : exists! blocks, archive (file_lines text) blocks.
Proof.
  destruct (archive_exists (file_lines text)) as [bs H]. exists bs. split; [exact H|].
  intros bs' H'. now rewrite <- (archive_ok _ _ H), <- (archive_ok _ _ H').
Qed.
Print Assumptions C23_every_archive.

Definition nl := [newline].
Example C23_example :
  kaldi_archive (file_lines (nl ++ str "u1" ++ nl ++ str "0 1 2" ++ nl ++ nl ++ str " " ++ nl ++ str "u2" ++ nl ++ str "0 x")) []
  = [[str "u1"; str "0 1 2"]; [str "u2"; str "0 x"]].
Proof. vm_compute. reflexivity. Qed.

(** ** C24: SLF format *)
Theorem C24_slf_round_trip parse_int parse_float nlog show_num a :
  number_text parse_int parse_float show_num -> slf_writable a ->
  read_slf parse_int parse_float nlog (write_slf show_num a) = Ok (without_transitions a).
Proof. intros H1 H2. now apply slf_round_trip. Qed.
Print Assumptions C24_slf_round_trip.

(** Anything that can be read is consistent, with one final node. *)
Theorem C24_read_consistent parse_int parse_float nlog text a :
  read_slf parse_int parse_float nlog text = Ok a ->
  lattice_ok a /\
  exists f, f < length (a_nodes a) /\ forall i n, nth_error (a_nodes a) i = Some n ->
    (n_final n = true <-> i = f) /\ (n_out n = [] -> i = f).
Proof. apply read_slf_ok. Qed.
Print Assumptions C24_read_consistent.

Example C24_example : number_text ex_parse_int ex_parse_float ex_show_num /\ slf_writable ex_lattice.
Proof. exact (conj ex_number_text ex_slf_writable). Qed.

(** Without the conditions the lattice is not preserved: a word that contains a
    space, or a second node that no link leaves. *)
Definition bad_word_lattice : lattice :=
  mkLattice [mkNode [0] [] None false; mkNode [] [0] None true]
            [mkLink 0 1 (Some (str "a b")) None None []] 0 (Some (str "u")) None None.
Definition dead_end_lattice : lattice :=
  mkLattice [mkNode [0; 1] [] None false; mkNode [] [0] None true; mkNode [] [1] None false]
            [mkLink 0 1 (Some (str "a")) None None []; mkLink 0 2 (Some (str "b")) None None []]
            0 (Some (str "u")) None None.
Theorem C24_unconditional_refuted :
  exists a b, lattice_ok a /\ lattice_ok b /\ forall nlog,
    (forall a', read_slf ex_parse_int ex_parse_float nlog (write_slf ex_show_num a) = Ok a' ->
                exists l, a_links a' = [l] /\ k_word l = Some (str "a")) /\
    read_slf ex_parse_int ex_parse_float nlog (write_slf ex_show_num b) = Err InputError.
Proof.
  exists bad_word_lattice, dead_end_lattice. split; [|split].
  - split; [split|cbn; lia].
    + intros l Hl. cbn in Hl. destruct Hl as [<-|[]]; cbn; lia.
    + intros i n H. do 2 (destruct i as [|i]; [injection H as <-; reflexivity|]). destruct i; discriminate.
    + intros i n H. do 2 (destruct i as [|i]; [injection H as <-; reflexivity|]). destruct i; discriminate.
  - split; [split|cbn; lia].
    + intros l Hl. cbn in Hl. destruct Hl as [<-|[<-|[]]]; cbn; lia.
    + intros i n H. do 3 (destruct i as [|i]; [injection H as <-; reflexivity|]). destruct i; discriminate.
    + intros i n H. do 3 (destruct i as [|i]; [injection H as <-; reflexivity|]). destruct i; discriminate.
  - intros nlog. split; [|vm_compute; reflexivity].
    intros a' H. vm_compute in H. first [discriminate | injection H as <-; eexists; split; reflexivity].
Qed.
Print Assumptions C24_unconditional_refuted.

(** ** C25: Kaldi format *)

(** The lattices of an archive, written one after another and read back *)
Theorem C25_kaldi_round_trip parse_int parse_float show_num show_z w2i ls :
  number_text parse_int parse_float show_num -> id_text parse_int show_z ->
  kaldi_vocabulary_ok w2i -> Forall (kaldi_writable w2i) ls ->
  exists texts table read,
    mapM (write_kaldi show_num show_z w2i) ls = Ok texts /\
    kaldi_id_to_word w2i = Ok table /\
    mapM (fun block => read_kaldi parse_int parse_float block table)
         (kaldi_archive (file_lines (concat texts)) []) = Ok read /\
    Forall2 (fun a a' => lattice_ok a' /\ same_links a a' /\
                         forall labels, accepts a' (a_initial a') labels <->
                                        accepts a (a_initial a) labels) ls read.
Proof.
  intros NT IT VO H. destruct (kaldi_table w2i VO) as (table & Ht & _).
  destruct (kaldi_round_trip _ _ _ _ NT IT w2i table VO Ht ls H) as (texts & read & H1 & H2 & H3).
  exists texts, table, read. split; [exact H1|]. split; [exact Ht|]. split; [exact H2|].
  clear H1 H2. induction H3 as [|a a' ls read [Ho Hs] _ IH]; constructor.
  - split; [exact Ho|]. split; [exact Hs|]. apply (same_links_accepts w2i); [now inversion H|exact Hs].
  - apply IH. now inversion H.
Qed.
Print Assumptions C25_kaldi_round_trip.

Example C25_example : number_text ex_parse_int ex_parse_float ex_show_num /\ id_text ex_parse_int ex_show_z /\
  kaldi_vocabulary_ok ex_w2i /\ Forall (kaldi_writable ex_w2i) [ex_lattice; ex_lattice] /\
  accepts ex_lattice 0 (map link_label [nth 2 ex_links (mkLink 0 0 None None None []);
                                        nth 4 ex_links (mkLink 0 0 None None None [])]).
Proof.
  split; [exact ex_number_text|]. split; [exact ex_id_text|]. split; [exact ex_kaldi_vocabulary|].
  split; [constructor; [|constructor; [|constructor]]; exact ex_kaldi_writable|].
  cbn [map]. apply (acc_link ex_lattice (nth 2 ex_links (mkLink 0 0 None None None []))); [cbn; tauto|].
  apply (acc_link ex_lattice (nth 4 ex_links (mkLink 0 0 None None None []))); [cbn; tauto|].
  apply acc_final. reflexivity.
Qed.

(** A word on a link to the final node is lost, and a vocabulary whose IDs have
    gaps cannot be used. *)
Definition final_word_lattice : lattice :=
  mkLattice [mkNode [0] [] None false; mkNode [] [0] None true]
            [mkLink 0 1 (Some (str "a")) (Some (q (-1) 1)) (Some (q (-2) 1)) []] 0 (Some (str "u")) None None.
Theorem C25_final_word_lost_refuted :
  exists a text a' table, lattice_ok a /\
    kaldi_id_to_word ex_w2i = Ok table /\
    write_kaldi ex_show_num ex_show_z ex_w2i a = Ok text /\
    mapM (fun block => read_kaldi ex_parse_int ex_parse_float block table)
         (kaldi_archive (file_lines text) []) = Ok [a'] /\
    map k_word (a_links a) = [Some (str "a")] /\ map k_word (a_links a') = [None].
Proof.
  exists final_word_lattice. do 3 eexists. split; [|split; [|split; [|split]]].
  - split; [split|cbn; lia].
    + intros l Hl. cbn in Hl. destruct Hl as [<-|[]]; cbn; lia.
    + intros i n H. do 2 (destruct i as [|i]; [injection H as <-; reflexivity|]). destruct i; discriminate.
    + intros i n H. do 2 (destruct i as [|i]; [injection H as <-; reflexivity|]). destruct i; discriminate.
  - reflexivity.
  - reflexivity.
  - reflexivity.
  - split; reflexivity.
Qed.
Print Assumptions C25_final_word_lost_refuted.
Theorem C25_id_gap_refuted : exists w2i, NoDup (map fst w2i) /\ NoDup (map snd w2i) /\
  (forall w z, In (w, z) w2i -> (0 <= z)%Z) /\ kaldi_id_to_word w2i = Err IndexError.
Proof.
  exists [(str "<eps>", 0%Z); (str "a", 2%Z)]. split; [|split; [|split; [|vm_compute; reflexivity]]].
  - repeat constructor; cbn; intuition discriminate.
  - repeat constructor; cbn; intuition discriminate.
  - intros w z [H|[H|[]]]; injection H as <- <-; lia.
Qed.
Print Assumptions C25_id_gap_refuted.

(** ** C54: words on nodes *)

(** When words are moved from nodes to links, every link that can be reached from
    the initial node gets the word of its end node, if the node has one, and other
    links are kept; an input error is reported if and only if a reachable link and
    its end node both have a word. *)
Theorem C54_node_words nodes links node_words initial n :
  graph_ok nodes links -> length node_words = length nodes ->
  nth_error nodes initial = Some n ->
  let a := mkLattice nodes links initial None None None in
  let result := move_words (S (length links)) nodes node_words links [initial] (n_out n) in
  (exists links', result = Ok links' /\ length links' = length links /\
     forall k l, nth_error links k = Some l ->
       (reachable_node a (k_start l) -> nth_error links' k = Some (moved node_words l) /\ ~ clash node_words l) /\
       (~ reachable_node a (k_start l) -> nth_error links' k = Some l)) \/
  (result = Err InputError /\
   exists l, In l links /\ reachable_node a (k_start l) /\ clash node_words l).
Proof.
  intros G L H. assert (Hi : initial < length nodes) by (apply nth_error_Some; congruence).
  destruct (move_words_ok nodes links node_words initial G Hi L n H) as [(ls' & E & L' & H1 & _)|X].
  - left. exists ls'. auto.
  - right. exact X.
Qed.
Print Assumptions C54_node_words.

Definition slf_text : pystr :=
  concat (map (fun l => l ++ nl)
    [str "VERSION=1.0"; str "UTTERANCE=u"; str "N=3 L=2";
     str "I=0 t=0/1 W=!NULL"; str "I=1 W=a"; str "I=2 W=b"; str "J=0 S=0 E=1 a=-1/1 l=-2/1"; str "J=1 S=1 E=2 a=-3/1 l=-1/2"]).
Example C54_example : forall nlog,
  (do a <- read_slf ex_parse_int ex_parse_float nlog slf_text; Ok (a_initial a, map k_word (a_links a)))
  = Ok (0, [Some (str "a"); Some (str "b")]).
Proof. intros nlog. vm_compute. reflexivity. Qed.
