(** Vocabulary for the properties of networks. *)
From Verif Require Import Base Strings NetModel.

(** The first time steps of a mini-batch *)
Definition first_steps (k : nat) (b : batch) : batch :=
  mkBatch (firstn k (b_words b)) (firstn k (b_classes b)) (firstn k (b_mask b)) (b_dropout b).

(** The filters of a convolution layer cover as many time steps as its description
    says. *)
Definition filters_match {A} (l : layer A) (filter_size : nat) : Prop :=
  forall d w, In d (l_devices l) -> get_filters (l_params l) (l_name l) (str "input/W") d = Ok w -> length w = filter_size.

(** Layers other than the bidirectional layers and the layers that process the sequence
    in reverse *)
Definition forward_layer {A} (l : layer A) : Prop :=
  match l_kind l with
  | BLSTM | BGRU | ReverseLSTM | ReverseGRU | ReverseBLSTM | ReverseBGRU => False
  | GLU filter_size => filters_match l filter_size
  | _ => True
  end.

(** Layers that can be evaluated one time step at a time *)
Definition stepwise_layer {A} (l : layer A) : Prop :=
  match l_kind l with
  | BLSTM | BGRU | ReverseLSTM | ReverseGRU | ReverseBLSTM | ReverseBGRU | GLU _ => False
  | _ => True
  end.

(** A mini-batch of sequences of the same length: [words] and [classes] tell, for each
    time step, the words and classes of the sequences. *)
Definition unpadded (words classes : list (list nat)) : batch :=
  mkBatch words classes (map (map (fun _ => true)) words) None.

(** What the output of a layer at a time step may depend on: nothing but the input at
    that time step; the input up to that time step; or the input at all time steps
    except the next one. The next input is the word that the output layer predicts;
    None means that the output may depend on that too. *)
Inductive sight := Present | Past | Surroundings.
Definition join_sight (a b : option sight) : option sight :=
  match a, b with
  | Some Present, _ => b
  | _, Some Present => a
  | Some Past, Some Past => Some Past
  | Some _, Some _ => Some Surroundings
  | _, _ => None
  end.
Definition layer_sight {A} (l : layer A) (inputs : option sight) : option sight :=
  match l_kind l with
  | LSTM | GRU | GLU _ => match inputs with Some Present | Some Past => Some Past | _ => None end
  | BLSTM | BGRU | ReverseLSTM | ReverseGRU | ReverseBLSTM | ReverseBGRU => match inputs with Some Present => Some Surroundings | _ => None end
  | _ => inputs
  end.
Definition inputs_sight (sights : list (option sight)) (inputs : list nat) : option sight :=
  fold_right (fun i r => join_sight (nth i sights None) r) (Some Present) inputs.
Definition network_sight {A} (n : network A) : option sight :=
  inputs_sight (fold_left (fun sights l => sights ++ [layer_sight l (inputs_sight sights (l_inputs l))]) (n_layers n) [])
               (n_inputs n).

(** Two mini-batches that have the same dimensions and differ at most in the words and
    classes of one time step *)
Record differ_at (t : nat) (b b' : batch) : Prop := {
  da_mask : b_mask b' = b_mask b;
  da_words : forall i, i <> t -> nth_error (b_words b') i = nth_error (b_words b) i;
  da_classes : forall i, i <> t -> nth_error (b_classes b') i = nth_error (b_classes b) i;
  da_length : length (b_words b) = length (b_mask b) /\ length (b_classes b) = length (b_mask b) /\
              length (b_words b') = length (b_mask b) /\ length (b_classes b') = length (b_mask b);
  da_dropout : b_dropout b = None /\ b_dropout b' = None }.

(** The number for a time step and a sequence in a matrix *)
Definition cell {X} (x : list (list X)) (t s : nat) : option X :=
  match nth_error x t with Some row => nth_error row s | None => None end.

(** A mini-batch of [N] sequences, padded to [T] time steps *)
Definition rectangle {X} (T N : nat) (x : list (list X)) : Prop := length x = T /\ Forall (fun row => length row = N) x.
Record dimensions (b : batch) (T N : nat) : Prop := {
  dim_words : rectangle T N (b_words b);
  dim_classes : rectangle T N (b_classes b);
  dim_mask : rectangle T N (b_mask b) }.

(** Sequence [s] of a mini-batch starts with these words (with their classes); anything
    may follow. *)
Definition starts_with (b : batch) (s : nat) (ws : list (nat * nat)) : Prop :=
  forall t w c, nth_error ws t = Some (w, c) ->
  cell (b_words b) t s = Some w /\ cell (b_classes b) t s = Some c /\ cell (b_mask b) t s = Some true.

(** A mini-batch that contains only one sequence *)
Definition alone (ws : list (nat * nat)) : batch :=
  unpadded (map (fun x => [fst x]) ws) (map (fun x => [snd x]) ws).

(** The filters of a convolution layer cover the number of time steps that the
    description of the layer says, which is at least one. *)
Definition proper_layer {A} (l : layer A) : Prop :=
  match l_kind l with GLU filter_size => filter_size <> 0 /\ filters_match l filter_size | _ => True end.
(** Layers other than bidirectional layers and layers that process the sequence in
    reverse *)
Definition unidirectional_layer {A} (l : layer A) : Prop :=
  match l_kind l with BLSTM | BGRU | ReverseLSTM | ReverseGRU | ReverseBLSTM | ReverseBGRU => False | _ => True end.
