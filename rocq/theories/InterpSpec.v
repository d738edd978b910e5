(** Probabilities, given as logarithms. *)
From Coq Require Import Reals.
From Verif Require Import Base InterpModel.
Local Open Scope R_scope.

(** The logarithm of a number that is not negative *)
Definition log_number (x : number) : Prop :=
  match x with Real _ | MinusInfinity => True | _ => False end.
(** The number whose logarithm it is *)
Definition prob (x : number) : R := match x with Real a => exp a | _ => 0 end.

Definition below (x y : number) : Prop :=
  match x, y with
  | MinusInfinity, (MinusInfinity | Real _) => True
  | Real a, Real b => a <= b
  | _, _ => False
  end.

(** p to the power w, with 0 to the power 0 being 1 *)
Definition power (p w : R) : R :=
  if Req_EM_T w 0 then 1 else if Req_EM_T p 0 then 0 else Rpower p w.

Definition total (l : list R) : R := fold_right Rplus 0 l.

(** A list of the logarithms of probabilities that sum to one *)
Definition distribution (l : list number) : Prop :=
  Forall log_number l /\ total (map prob l) = 1.

(** What the rest of a path adds to a hypothesis: words, acoustic score, and the
    logarithms of the probabilities that the lattice and the network give *)
Record rest := mkRest { r_words : nat; r_ac : R; r_lat : R; r_nn : R }.
Definition extend (k : scores) (e : rest) : scores :=
  mkScores (k_words k + r_words e)%nat (k_ac k + r_ac e) (plus (k_lat k) (Real (r_lat e))) (plus (k_nn k) (Real (r_nn e))).
