(** Small common definitions. *)
From Coq Require Import String Ascii NArith Arith List Bool Lia.
Import ListNotations.

Notation "'let?' x ':=' e 'in' k" :=
  (match e with Some x => k | None => None end)
  (at level 200, x pattern, e at level 100, k at level 200, right associativity).

(** Array read; [None] is an out-of-bounds access (undefined behaviour). *)
Definition tget {A} (l : list A) (i : N) : option A := nth_error l (N.to_nat i).

Definition bytes := list ascii.

(** What a C function sees of a buffer holding [s]: the bytes before the first NUL. *)
Fixpoint c_str (s : bytes) : bytes :=
  match s with
  | [] => []
  | c :: s' => if (N_of_ascii c =? 0)%N then [] else c :: c_str s'
  end.
