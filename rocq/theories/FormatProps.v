(** Properties of lattice files: what SLF and Kaldi files mean. *)
From Coq Require Import QArith Qcanon.
From Verif Require Import Base Strings Dict LatticeModel SlfModel KaldiModel LatticeSpec SlfSpec KaldiSpec
     SlfContents KaldiContents LatticeExamples.
Local Open Scope nat_scope.

(** ** C55: the lattice that is read from an SLF file is the one that the file
    describes (SlfSpec.slf_contents). *)
Theorem C55_slf_contents parse_int parse_float nlog text a :
  read_slf parse_int parse_float nlog text = Ok a ->
  slf_contents parse_int parse_float nlog (file_lines text) a.
Proof. apply read_contents. Qed.
Print Assumptions C55_slf_contents.

(** A file with a base, a penalty, a named final node that has outgoing links, an
    initial node that is not the first one, fields given twice, and a word on a
    node *)
Definition ex_slf_text : pystr :=
  concat (map (fun l => l ++ [newline])
    [str "VERSION=1.0 base=10/1 U=x"; str "UTTERANCE=""u 1"" wdpenalty=-2/1 end=1"; str "NODES=2 N=2";
     str "L=2"; str "# comment"; str "I=0 W=b"; str "I=0 t=3/1 t=1/1"; [];
     str "J=0 S=1 E=0 a=-1/1 l=-2/1 l=-3/1"; str "J=1 S=0 E=1 W=!NULL"]).
Example C55_example : forall nlog, exists a,
  read_slf ex_parse_int ex_parse_float nlog (str "start=1 " ++ ex_slf_text) = Ok a /\
  a_initial a = 1 /\ a_utterance a = Some (str "u 1") /\
   a_wi_penalty a = Some (q (-2) 1 * nlog (q 10 1))%Qc /\
   map n_final (a_nodes a) = [false; true] /\ map n_time (a_nodes a) = [Some (q 1 1); None] /\
   map k_word (a_links a) = [Some (str "b"); None] /\
   map k_lm (a_links a) = [Some (q (-3) 1 * nlog (q 10 1))%Qc; None].
Proof.
  intros nlog. eexists. split; [vm_compute; reflexivity|]. repeat split; reflexivity.
Qed.

(** ** C56: Kaldi files *)

(** A lattice file with no negative state numbers can be read if and only if it
    describes a lattice, and that lattice is the result. *)
Theorem C56_kaldi_read_succeeds parse_int parse_float lines id_to_word a :
  no_negative_states parse_int (tl lines) ->
  read_kaldi parse_int parse_float lines id_to_word = Ok a <->
  kaldi_contents parse_int parse_float lines id_to_word a.
Proof. apply kaldi_contents_iff. Qed.
Print Assumptions C56_kaldi_read_succeeds.

(** A word list can be read if and only if every line that is not blank has a word
    and an integer, and every word has the ID on the last line of the word. *)
Theorem C56_kaldi_vocabulary parse_int lines :
  ((exists d, read_kaldi_vocabulary parse_int lines = Ok d) <-> word_list_ok parse_int lines) /\
  forall d, read_kaldi_vocabulary parse_int lines = Ok d ->
    NoDup (dict_keys d) /\
    forall w z, dict_get pystr_eq_dec d w = Some z <-> word_list_id parse_int lines w z.
Proof. split; [apply word_list_iff|apply word_list_get]. Qed.
Print Assumptions C56_kaldi_vocabulary.

Definition ex_kaldi_file : list pystr :=
  [str "utt"; str "0 2 1 1/2,3/1,5_6"; []; str "2 1 0 ,-1/1"; str "1 2/1"; str "2"].
Example C56_example :
  no_negative_states ex_parse_int (tl ex_kaldi_file) /\
  (do a <- read_kaldi ex_parse_int ex_parse_float ex_kaldi_file [Some (str "<eps>"); Some (str "a")];
   Ok (a_initial a, length (a_nodes a), map (fun l => (k_start l, k_end l, k_word l)) (a_links a),
       map k_lm (a_links a)))
  = Ok (0, 4, [(0, 2, Some (str "a")); (2, 1, None); (1, 3, None); (2, 3, None)],
        [Some (q (-1) 2); Some 0%Qc; Some (q (-2) 1); Some 0%Qc]) /\
  (do d <- read_kaldi_vocabulary ex_parse_int [str "a 1"; [newline]; str "b 2"; str "a 3"];
   Ok (dict_get pystr_eq_dec d (str "a"))) = Ok (Some 3%Z).
Proof.
  split; [|split; vm_compute; reflexivity].
  intros line z Hl H. cbn [ex_kaldi_file tl In] in Hl.
  destruct Hl as [<-|[<-|[<-|[<-|[<-|[]]]]]];
    (destruct H as [(s & r & E & P)|(s & t & w & x & E & P)]; vm_compute in E; try discriminate;
     injection E; intros; subst; vm_compute in P; injection P as <-; lia).
Qed.
