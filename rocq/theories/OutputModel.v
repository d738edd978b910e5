(** Model of how the classes are divided in hierarchical softmax. No proofs.

    Simplification: the square root and the quotient are exact (they are floating point
    numbers in Python). *)
From Verif Require Import Base.

(** hsoftmaxlayer.py 31-41, __init__. The quotient of line 34 is that of two Python
    integers. *)
Definition level_sizes (output_size : nat) : result (nat * nat) :=
  let level1_size := Nat.sqrt_up output_size in
  if level1_size =? 0 then Err ZeroDivisionError else
  let level2_size := (output_size + (level1_size - 1)) / level1_size in
  if negb (output_size <=? level1_size * level2_size) then Err AssertionError else
  if negb ((level1_size - 1) * level2_size <? output_size) then Err AssertionError else
  if negb (level1_size * (level2_size - 1) <? output_size) then Err AssertionError else
  if negb ((level1_size =? level2_size) || (level1_size =? level2_size + 1)) then Err AssertionError else
  Ok (level1_size, level2_size).
