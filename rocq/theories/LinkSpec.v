(** What a network predicts, without regard to how it is used. *)
From Coq Require Import QArith Qcanon.
From Verif Require Import Base NetModel NetSpec StateModel LinkModel.
Local Open Scope nat_scope.

Section Link.
Variables qexp qsigmoid qtanh qrelu qleaky_relu : Qc -> Qc.
Notation A := (rationals qexp qsigmoid qtanh qrelu qleaky_relu).
Variable n : network A.

(** The probability of a class after the words of a sequence up to time step [t], when the
    sequence is the only one in the mini-batch *)
Definition network_alone (inputs : list (nat * nat)) (t target : nat) : Qc :=
  match target_probs n (alone inputs) (map (fun _ => [target]) inputs) with
  | Ok q => match cell q t 0 with Some p => p | None => 0%Qc end
  | Err _ => 0%Qc
  end.

(** The probability of the target class and the new state, when a hypothesis is the only
    one *)
Definition decoder_alone (x : nat * nat * nat * recurrent _ _ _ _ _ n) : Qc * recurrent _ _ _ _ _ n :=
  match decoder_results _ _ _ _ _ n [x] with Ok [r] => r | _ => (0%Qc, snd x) end.

(** The state in which decoding starts: latticedecoder.py 384 *)
Definition starting_state (st : recurrent _ _ _ _ _ n) : Prop :=
  construct 0%Qc (recurrent_state_size _ _ _ _ _ n) 1 None = Ok (proj1_sig st).
End Link.
