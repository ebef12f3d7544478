(** fmt::println / fmt::format with std::string arguments: format strings with {},
    {0}, {1}, ..., {{ and }}; and the escapes of C string literals. *)
From Coq Require Import String Ascii ZArith NArith Arith List Bool Lia.
From Verif Require Import Base.
Import ListNotations.
Local Open Scope string_scope.
Local Open Scope list_scope.

Definition nl : ascii := ascii_of_nat 10.
Definition tab : ascii := ascii_of_nat 9.
Definition dquote : ascii := ascii_of_nat 34.
Definition NL : string := String nl "".

(** The value of a C string literal (the four escapes the sources use). *)
Fixpoint unesc (s : string) : option string :=
  match s with
  | "" => Some ""
  | String "\"%char (String c r) =>
      let? r' := unesc r in
      if (c =? "n")%char then Some (String nl r')
      else if (c =? "t")%char then Some (String tab r')
      else if (c =? """")%char then Some (String dquote r')
      else if (c =? "\")%char then Some (String "\" r')
      else None
  | String c r => if (c =? "\")%char then None else let? r' := unesc r in Some (String c r')
  end%string.

Inductive piece := Lit (s : string) | Arg (n : nat).

Definition digit (c : ascii) : option nat :=
  let n := nat_of_ascii c in if ((48 <=? n)%nat && (n <=? 57)%nat)%bool then Some (n - 48) else None.

(** Numbering: fmt rejects a format string that mixes {} and {n}. *)
Inductive numbering := NoArg | Auto (next : nat) | Manual.

Definition addc (c : ascii) (ps : list piece) : list piece :=
  match ps with Lit s :: r => Lit (String c s) :: r | _ => Lit (String c "") :: ps end.

(** Replacement fields: only {} and {digit} occur.  [None]: fmt::format_error. *)
Fixpoint pieces (m : numbering) (s : string) : option (list piece) :=
  match s with
  | "" => Some []
  | String c r =>
      if (c =? "{")%char then
        match r with
        | String "{"%char r2 => let? ps := pieces m r2 in Some (addc "{" ps)
        | String "}"%char r2 =>
            match m with
            | Manual => None
            | Auto n => let? ps := pieces (Auto (S n)) r2 in Some (Arg n :: ps)
            | NoArg => let? ps := pieces (Auto 1) r2 in Some (Arg 0 :: ps)
            end
        | String d (String "}"%char r2) =>
            match digit d, m with
            | Some n, NoArg | Some n, Manual => let? ps := pieces Manual r2 in Some (Arg n :: ps)
            | _, _ => None
            end
        | _ => None
        end
      else if (c =? "}")%char then
        match r with
        | String "}"%char r2 => let? ps := pieces m r2 in Some (addc "}" ps)
        | _ => None
        end
      else let? ps := pieces m r in Some (addc c ps)
  end%string.

(** A literal format string as it stands in the source. *)
Definition template := option (list piece).
Definition compile (s : string) : template := let? u := unesc s in pieces NoArg u.

Fixpoint fill (ps : list piece) (args : list string) : option string :=
  match ps with
  | [] => Some ""
  | Lit s :: r => let? t := fill r args in Some (s ++ t)%string
  | Arg n :: r => let? a := nth_error args n in let? t := fill r args in Some (a ++ t)%string
  end.

(** fmt::format *)
Definition format (t : template) (args : list string) : option string :=
  let? ps := t in fill ps args.
(** What fmt::println prints. *)
Definition println (t : template) (args : list string) : option string :=
  let? s := format t args in Some (s ++ NL)%string.

Example fmt_ex : println (compile "\tbool do_{0}(""x"", {1} *d);\n{{ {0}") ["a"; "b"] =
  Some (String tab ("bool do_a(""x"", b *d);" ++ String nl ("{ a" ++ NL)))%string.
Proof. reflexivity. Qed.
Example fmt_ex2 : map (fun s => format (compile s) ["a"]) ["{} {}"; "{0} {}"; "}"; "{x}"; "{"; "{}{}x"]
  = [None; None; None; None; None; None].
Proof. reflexivity. Qed.
