(** Decimal text of integers: what std::ostream, std::to_string and fmt print for
    integers in base 10. *)
From Coq Require Import String Ascii ZArith NArith Arith List Bool Lia.
Import ListNotations.
Local Open Scope N_scope.

Definition digit_char (d : N) : ascii := ascii_of_N (48 + d).

(** Most significant digit first; [fuel] bounds the number of digits. *)
Fixpoint dec_aux (fuel : nat) (n : N) (acc : string) : string :=
  match fuel with
  | O => acc
  | S f =>
      let acc' := String (digit_char (n mod 10)) acc in
      if n / 10 =? 0 then acc' else dec_aux f (n / 10) acc'
  end.

Definition dec (n : N) : string := dec_aux (S (N.to_nat (N.log2 n))) n EmptyString.

Definition zdec (z : Z) : string :=
  match z with
  | Z0 => dec 0
  | Zpos p => dec (Npos p)
  | Zneg p => String "-" (dec (Npos p))
  end.

Example dec_ex : (dec 0, dec 7, dec 10, dec 4096, zdec (-120)) =
  ("0", "7", "10", "4096", "-120")%string.
Proof. vm_compute. reflexivity. Qed.
