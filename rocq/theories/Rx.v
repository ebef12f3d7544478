(** std::regex_search for the regular expressions in the emitted code (ECMAScript
    grammar): characters, \w, ., escaped punctuation, + (greedy) and groups.
    [None] of [rx_compile]: outside the subset. *)
From Coq Require Import String Ascii ZArith NArith Arith List Bool Lia.
From Verif Require Import Base Fmt Cpp Xml.
Import ListNotations.
Local Open Scope string_scope.
Local Open Scope list_scope.

Inductive rclass := RChar (c : ascii) | RWord | RAny.
Inductive ritem := ROpen | RClose | RItem (c : rclass) (plus : bool).

Definition rclass_has (r : rclass) (c : ascii) : bool :=
  match r with
  | RChar d => (c =? d)%char
  | RWord => is_idc c
  | RAny => negb ((c =? nl) || (c =? cr))%char
  end.

Definition is_special (c : ascii) : bool :=
  existsb (Ascii.eqb c) ["^"; "$"; "\"; "."; "*"; "+"; "?"; "("; ")"; "["; "]"; "{"; "}"; "|"]%char.

Fixpoint rx_compile (s : string) : option (list ritem) :=
  match s with
  | "" => Some []
  | String c r =>
      if (c =? "(")%char then let? l := rx_compile r in Some (ROpen :: l)
      else if (c =? ")")%char then let? l := rx_compile r in Some (RClose :: l)
      else if (c =? "\")%char then
        match r with
        | String d r2 =>
            if (d =? "w")%char then
              match r2 with
              | String "+"%char r3 => let? l := rx_compile r3 in Some (RItem RWord true :: l)
              | _ => let? l := rx_compile r2 in Some (RItem RWord false :: l)
              end
            else if is_special d then
              match r2 with
              | String "+"%char r3 => let? l := rx_compile r3 in Some (RItem (RChar d) true :: l)
              | _ => let? l := rx_compile r2 in Some (RItem (RChar d) false :: l)
              end
            else None
        | _ => None
        end
      else if (c =? ".")%char then
        match r with
        | String "+"%char r2 => let? l := rx_compile r2 in Some (RItem RAny true :: l)
        | _ => let? l := rx_compile r in Some (RItem RAny false :: l)
        end
      else if is_special c then None
      else
        match r with
        | String "+"%char r2 => let? l := rx_compile r2 in Some (RItem (RChar c) true :: l)
        | _ => let? l := rx_compile r in Some (RItem (RChar c) false :: l)
        end
  end%string.

Definition cur_add (cur : option string) (c : ascii) : option string := option_map (fun s => snoc s c) cur.

(** Match at the beginning of [s]; [cur]: text of the open group, [gs]: groups so far. *)
Fixpoint rx_match (rs : list ritem) (s : string) (cur : option string) (gs : list string) {struct rs}
    : option (list string) :=
  match rs with
  | [] => Some gs
  | ROpen :: r => rx_match r s (Some "") gs
  | RClose :: r => match cur with Some t => rx_match r s None (gs ++ [t]) | None => None end
  | RItem c false :: r =>
      match s with
      | String a t => if rclass_has c a then rx_match r t (cur_add cur a) gs else None
      | EmptyString => None
      end
  | RItem c true :: r =>
      (fix plus (s : string) (cur : option string) : option (list string) :=
         match s with
         | String a t =>
             if rclass_has c a then
               match plus t (cur_add cur a) with
               | Some g => Some g
               | None => rx_match r t (cur_add cur a) gs
               end
             else None
         | EmptyString => None
         end) s cur
  end.

Fixpoint rx_search (rs : list ritem) (s : string) : option (list string) :=
  match rx_match rs s None [] with
  | Some g => Some g
  | None => match s with String _ t => rx_search rs t | EmptyString => None end
  end.

Example rx_ex : (let? r := rx_compile "(\w+) (.+)" in rx_search r ("  key val ue" ++ NL)) = Some ["key"; "val ue"].
Proof. reflexivity. Qed.
Example rx_ex2 : (let? r := rx_compile "\[(.+)\]" in rx_search r ("[a]b] x" ++ NL)) = Some ["a]b"].
Proof. reflexivity. Qed.
