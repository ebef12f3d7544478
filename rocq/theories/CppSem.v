(** Meaning of the emitted C++: an interpreter for the syntax of Cpp.v.

    Outcomes: a value, a thrown std::exception, undefined behaviour ([UB]), a program
    the subset gives no meaning to (does not compile, or uses something not modelled,
    [Bad]), and not enough fuel for the depth of calls or a while loop ([Fuel]).

    Simplifications.  A pointer or reference to an object that is passed to a function
    is bound to a copy which is copied back on return; the emitted calls pass one
    pointer or reference to an object each, so nothing can be seen of that.  An
    XMLElement * passed to a function is treated in the same way with the subtree below it:
    the library calls of the emitted code only go down from an element.  Copying a
    struct copies members that are not initialised without being undefined. *)
From Coq Require Import String Ascii ZArith NArith Arith List Bool Lia.
From Verif Require Import Base Items Grammar Fmt Decimal Cpp Xml Val Rx.
Import ListNotations.
Local Open Scope string_scope.
Local Open Scope list_scope.

(** *** State *)
Inductive content := CDoc (ns : list node) | CText (s : string).
(** Files, the stream open for reading, the stream open for writing. *)
Record world := World { w_files : list (string * content); w_in : option string; w_out : option (string * string) }.

Definition scope := list (string * val).
Record st := St { s_scopes : list scope; s_tree : node; s_this : scope; s_world : world }.

Definition set_scopes (s : st) x := St x (s_tree s) (s_this s) (s_world s).
Definition set_tree (s : st) x := St (s_scopes s) x (s_this s) (s_world s).
Definition set_this (s : st) x := St (s_scopes s) (s_tree s) x (s_world s).
Definition set_world (s : st) x := St (s_scopes s) (s_tree s) (s_this s) x.

Inductive res (A : Type) := Ok (a : A) (s : st) | Exc (s : st) | UB | Bad | Fuel.
Arguments Ok {A}. Arguments Exc {A}. Arguments UB {A}. Arguments Bad {A}. Arguments Fuel {A}.

Notation "'do' ( x , s ) <- e ; k" :=
  (match e with Ok x s => k | Exc s' => Exc s' | UB => UB | Bad => Bad | Fuel => Fuel end)
  (at level 200, x pattern, s name, e at level 100, k at level 200).
(** [Bad] when something is missing. *)
Notation "'need' x <- e ; k" :=
  (match e with Some x => k | None => Bad end)
  (at level 200, x pattern, e at level 100, k at level 200).

Fixpoint lookup (x : string) (sc : list scope) : option val :=
  match sc with
  | [] => None
  | f :: r => match assoc x f with Some v => Some v | None => lookup x r end
  end.
Fixpoint update (x : string) (v : val) (sc : list scope) : option (list scope) :=
  match sc with
  | [] => None
  | f :: r =>
      match assoc x f with
      | Some _ => Some (set_assoc x v f :: r)
      | None => let? r' := update x v r in Some (f :: r')
      end
  end.

Definition get_root (l : lval) (s : st) : option val :=
  if lv_this l then assoc (lv_root l) (s_this s) else lookup (lv_root l) (s_scopes s).
Definition get_lv (l : lval) (s : st) : option val :=
  let? v := get_root l s in get_path (lv_path l) v.
Definition put_lv (l : lval) (w : val) (s : st) : option st :=
  let? v := get_root l s in
  let? v' := put_path (lv_path l) w v in
  if lv_this l then Some (set_this s (set_assoc (lv_root l) v' (s_this s)))
  else let? sc := update (lv_root l) v' (s_scopes s) in Some (set_scopes s sc).

(** New variable in the innermost block; declared twice there: ill-formed. *)
Definition declare (x : string) (v : val) (s : st) : option st :=
  match s_scopes s with
  | f :: r => match assoc x f with Some _ => None | None => Some (set_scopes s (((x, v) :: f) :: r)) end
  | [] => None
  end.

Fixpoint names_eqb (a b : list string) : bool :=
  match a, b with
  | [], [] => true
  | x :: a', y :: b' => String.eqb x y && names_eqb a' b'
  | _, _ => false
  end.

(** Text up to the first NUL: what a C function sees. *)
Fixpoint cut (s : string) : string :=
  match s with
  | String c r => if (c =? ascii_of_nat 0)%char then "" else String c (cut r)
  | EmptyString => ""
  end.

(** *** Conversions and operators *)
Inductive may (A : Type) := Yes (a : A) | MUB | MBad | MExc.
Arguments Yes {A}. Arguments MUB {A}. Arguments MBad {A}. Arguments MExc {A}.
Definition lift {A} (m : may A) (s : st) : res A :=
  match m with Yes a => Ok a s | MUB => UB | MBad => Bad | MExc => Exc s end.

Definition conv (L : lang) (t : ty) (v : val) : may val :=
  match v with
  | VUndef _ => MUB
  | _ =>
      match t with
      | TNum k => match v with VNum _ z => Yes (VNum k (to_kind L k z)) | _ => MBad end
      | TFlt k => match v with VFlt j b => if fkind_eqb k j then Yes v else MBad | _ => MBad end
      | TStd =>
          match v with
          | VStr s => Yes v
          | VCStr (Some s) => Yes (VStr s)
          | VCStr None => MUB
          | _ => MBad
          end
      | TEnum n => match v with VEnum m z => if String.eqb n m then Yes v else MBad | _ => MBad end
      | TStruct n => match v with VStruct m _ => if String.eqb n m then Yes v else MBad | _ => MBad end
      | TVec n => match v with VVec m _ => if String.eqb n m then Yes v else MBad | _ => MBad end
      | TCStr => match v with VCStr _ => Yes v | VNull => Yes (VCStr None) | _ => MBad end
      | TEl => match v with VEl _ | VNewEl _ => Yes v | VNull => Yes (VEl None) | _ => MBad end
      | TOther x =>
          match v with
          | VCStr (Some s) => if String.eqb x "regex" then Yes (VRegex s) else MBad
          | _ => match ty_of v with TOther y => if String.eqb x y then Yes v else MBad | _ => MBad end
          end
      end
  end.

(** == *)
Definition veq (L : lang) (a b : val) : may bool :=
  match a, b with
  | VUndef _, _ | _, VUndef _ => MUB
  | VNum k x, VNum j y => if nkind_eqb k j then Yes (x =? y)%Z else MBad
  | VFlt k x, VFlt j y => if fkind_eqb k j then Yes (l_feq L k x y) else MBad
  | VStr x, VStr y => Yes (String.eqb x y)
  | VChr x, VChr y => Yes (x =? y)%char
  | VSize (Some n), VNum _ z => Yes (Z.of_nat n =? z)%Z
  | VSize None, VSize None => Yes true
  | VSize (Some n), VSize (Some m) => Yes (n =? m)%nat
  | VSize _, VSize _ => Yes false
  | VEnum t x, VEnum u y => if String.eqb t u then Yes (x =? y)%Z else MBad
  | VErr x, VErr y => if x || y then Yes (Bool.eqb x y) else MBad
  | VIter None, VIter None => Yes true
  | VIter (Some _), VIter None | VIter None, VIter (Some _) => Yes false
  | VEl p, VNull | VNull, VEl p => Yes (match p with Some _ => false | None => true end)
  | VCStr p, VNull | VNull, VCStr p => Yes (match p with Some _ => false | None => true end)
  | VFile f, VNull | VNull, VFile f => Yes (negb f)
  | VNull, VNull => Yes true
  | _, _ => MBad
  end.

Definition vbool (b : bool) : val := VNum KBool (if b then 1 else 0).
(** The value of a condition. *)
Definition truth (v : val) : may bool :=
  match v with
  | VUndef _ => MUB
  | VNum _ z => Yes (negb (z =? 0)%Z)
  | _ => MBad
  end.

Definition binary (L : lang) (o : binop) (a b : val) : may val :=
  match o with
  | b_eq => match veq L a b with Yes r => Yes (vbool r) | MUB => MUB | MBad => MBad | MExc => MExc end
  | b_ne => match veq L a b with Yes r => Yes (vbool (negb r)) | MUB => MUB | MBad => MBad | MExc => MExc end
  | b_gt =>
      match a, b with
      | VSize (Some n), VNum _ z => Yes (vbool (z <? Z.of_nat n)%Z)
      | _, _ => MBad
      end
  | b_add =>
      match a, b with
      | VStr x, VCStr (Some y) | VStr x, VStr y => Yes (VStr (x ++ y))
      | VNum KInt x, VNum KInt y => if in_int (x + y) then Yes (VNum KInt (x + y)) else MUB
      | _, _ => MBad
      end
  | _ => MBad
  end.

(** *** Library functions on text *)
(** std::stoi and so on: base 10, blanks and sign allowed, the rest ignored. *)
Definition sto_num (L : lang) (k : nkind) (s : string) : may val :=
  match scan_dec s with
  | None => MExc
  | Some z =>
      if signed k then
        if ((- 2 ^ (bits L k - 1) <=? z) && (z <? 2 ^ (bits L k - 1)))%Z then Yes (VNum k z) else MExc
      else if (Z.abs z <? 2 ^ bits L k)%Z then Yes (VNum k (wrap (bits L k) false z)) else MExc
  end.
Definition sto_flt (L : lang) (k : fkind) (s : string) : may val :=
  match l_sto L k s with Some b => Yes (VFlt k b) | None => MExc end.

(** Text of a value in SetAttribute / SetText, chosen by overload resolution. *)
Definition xml_text (L : lang) (v : val) : may string :=
  match v with
  | VUndef _ => MUB
  | VNum KBool z => Yes (if (z =? 0)%Z then "false" else "true")
  | VNum KInt z | VNum KUInt z => Yes (zdec z)
  | VNum KShort z | VNum KUShort z => Yes (zdec z)            (* promoted to int *)
  | VNum KLong z | VNum KULong z =>                           (* int64_t, else ambiguous *)
      if (l_long L =? 64)%Z then Yes (zdec z) else MBad
  | VFlt k b => Yes (l_xprint L k b)
  | VCStr (Some s) => Yes s
  | VCStr None => MBad                                        (* the attribute or text is ignored: not modelled *)
  | _ => MBad
  end.

(** The query functions that exist, by the type of the target. *)
Inductive query_result := QOk (v : val) | QFail | QUB | QBad.
Definition scan_as (k : nkind) (r : scanned) : query_result :=
  match r with Value z => QOk (VNum k z) | NoValue => QFail | Overflow => QUB end.
Definition query (L : lang) (t : ty) (s : string) : query_result :=
  match t with
  | TNum KInt => scan_as KInt (to_int s)
  | TNum KUInt => scan_as KUInt (to_unsigned s)
  | TNum KBool => scan_as KBool (to_bool s)
  | TFlt k => match l_xread L k s with Some b => QOk (VFlt k b) | None => QFail end
  | TCStr => QOk (VCStr (Some s))
  | _ => QBad
  end.
(** Types for which QueryAttribute(name, &x) exists. *)
Definition query_type (t : ty) : bool :=
  match t with TNum KInt | TNum KUInt | TNum KBool | TFlt _ | TCStr => true | _ => false end.

Fixpoint find_chr (c : ascii) (s : string) (i : nat) : option nat :=
  match s with
  | EmptyString => None
  | String d r => if (c =? d)%char then Some i else find_chr c r (S i)
  end.
(** fgets: at most [n] characters, up to and including the newline. *)
Fixpoint take_line (n : nat) (s : string) : string * string :=
  match n, s with
  | S n, String c r => if (c =? nl)%char then (String c "", r) else let (a, b) := take_line n r in (String c a, b)
  | _, _ => ("", s)
  end.

(** *** Expressions *)
Definition arg := (option lval * val)%type.

(** fmt: replacement fields in a format string that is already unescaped. *)
Definition fmt_fill (f : string) (texts : list string) : option string :=
  let? ps := pieces NoArg f in fill ps texts.

Section Sem.
Variable L : lang.
(** Calls of generated functions: qualified name, arguments. *)
Variable call : list string -> list arg -> st -> res val.
(** The class whose member function is running, and the names of its member functions. *)
Variable cls : string.
Variable member_fun : string -> bool.
(** Bound on iterations of while. *)
Variable wfuel : nat.

Definition is_local (x : string) (s : st) : bool :=
  match lookup x (s_scopes s) with Some _ => true | None => false end.
Definition is_member (x : string) (s : st) : bool :=
  match assoc x (s_this s) with Some _ => true | None => false end.

(** A type name as seen from inside the function. *)
Definition named_type (q : list string) (s : st) : option ty :=
  match q with
  | [n] =>
      if (is_local n s || is_member n s || member_fun n)%bool then None
      else if String.eqb n "size_t" then Some (TOther "size_t")
      else if (String.eqb n "read_item_S" && is_member "m_lookup" s)%bool then Some (TStruct "read_item_S")
      else user_type L n
  | [a; b] =>
      if String.eqb a "" then
        if String.eqb b "bool" then Some (TNum KBool)
        else if String.eqb b "int" then Some (TNum KInt)
        else if String.eqb b "short" then Some (TNum KShort)
        else if String.eqb b "long" then Some (TNum KLong)
        else if String.eqb b "unsigned int" then Some (TNum KUInt)
        else if String.eqb b "unsigned short" then Some (TNum KUShort)
        else if String.eqb b "unsigned long" then Some (TNum KULong)
        else if String.eqb b "float" then Some (TFlt KFloat)
        else if String.eqb b "double" then Some (TFlt KDouble)
        else None
      else if String.eqb a "std" then
        if String.eqb b "string" then Some TStd
        else if String.eqb b "smatch" then Some (TOther "match")
        else if String.eqb b "regex" then Some (TOther "regex")
        else None
      else if String.eqb a "tinyxml2" then
        if String.eqb b "XMLError" then Some (TOther "err")
        else if String.eqb b "XMLDocument" then Some (TOther "doc")
        else None
      else None
  | _ => None
  end.
Definition pointer_type (q : list string) (s : st) : option ty :=
  match q with
  | [n] =>
      if (is_local n s || is_member n s || member_fun n)%bool then None
      else if (String.eqb n "read_item_S" && is_member "m_lookup" s)%bool then Some (TOther "ptr")
      else None
  | [a; b] =>
      if names_eqb q ["tinyxml2"; "XMLElement"] then Some TEl
      else if names_eqb q [""; "char"] then Some TCStr
      else if names_eqb q ["std"; "FILE"] then Some (TOther "file")
      else None
  | _ => None
  end.

(** Objects denoted by an expression.  An index is a variable or a literal here. *)
Definition simple_key (e : expr) (s : st) : option string :=
  match e with
  | EId [x] =>
      match lookup x (s_scopes s) with
      | Some (VStr k) => Some k
      | Some _ => None
      | None => match assoc x (s_this s) with Some (VStr k) => Some k | _ => None end
      end
  | EStr k => Some k
  | _ => None
  end.
Fixpoint lvalue (e : expr) (s : st) : option lval :=
  match e with
  | EId [x] =>
      if is_local x s then Some (LV false x [])
      else if is_member x s then Some (LV true x []) else None
  | EMem false e m => let? l := lvalue e s in Some (LV (lv_this l) (lv_root l) (lv_path l ++ [AFld m]))
  | EMem true e m =>
      let? l := lvalue e s in
      match get_lv l s with
      | Some (VPtr (Some l)) => Some (LV (lv_this l) (lv_root l) (lv_path l ++ [AFld m]))
      | _ => None
      end
  | EIdx e i =>
      let? l := lvalue e s in
      match get_lv l s with
      | Some (VMap _) => let? k := simple_key i s in Some (LV (lv_this l) (lv_root l) (lv_path l ++ [AKey k]))
      | _ => None
      end
  | _ => None
  end.

Definition store (l : lval) (v : val) (s : st) : res val :=
  need s' <- put_lv l v s; Ok v s'.
(** Assignment converts to the type of the object. *)
Definition assign (l : lval) (v : val) (s : st) : res val :=
  need old <- get_lv l s;
  do (w, s) <- lift (conv L (ty_of old) v) s;
  store l w s.
(** operator [] creates a missing element (only maps of read_item_S are indexed so). *)
Definition assign_elem (l : lval) (v : val) (s : st) : res val :=
  match get_lv l s with
  | Some _ => assign l v s
  | None => match v with VStr _ | VStruct _ _ => store l v s | VCStr (Some x) => store l (VStr x) s | _ => Bad end
  end.

(** The result of a query function: the target is changed only on success. *)
Definition put_query (l : lval) (t : option string) (s : st) : res val :=
  need old <- get_lv l s;
  if query_type (ty_of old) then
    match t with
    | None => Ok (VErr false) s
    | Some x =>
        match query L (ty_of old) x with
        | QOk v => need s' <- put_lv l v s; Ok (VErr true) s'
        | QFail => Ok (VErr false) s
        | QUB => UB
        | QBad => Bad
        end
    end
  else Bad.
(** ... of the query functions named after a type. *)
Definition put_query_as (k : ty) (l : lval) (t : option string) (s : st) : res val :=
  need old <- get_lv l s;
  match k, ty_of old with
  | TNum a, TNum b => if nkind_eqb a b then put_query l t s else Bad
  | TFlt a, TFlt b => if fkind_eqb a b then put_query l t s else Bad
  | _, _ => Bad
  end.

(** Member functions of XMLElement; [p] is the element's position, [x] the element. *)
Definition el_method (p : list nat) (x : node) (m : string) (args : list arg) (s : st) : res val :=
  let upd f := set_tree s (upd_path p f (s_tree s)) in
  match args with
  | [(_, VCStr (Some n)); (_, VPtr (Some l))] =>
      if String.eqb m "QueryAttribute" then put_query l (attr n (attrs_of x)) s
      else if String.eqb m "QueryIntAttribute" then put_query_as (TNum KInt) l (attr n (attrs_of x)) s
      else if String.eqb m "QueryUnsignedAttribute" then put_query_as (TNum KUInt) l (attr n (attrs_of x)) s
      else Bad
  | [(_, VCStr (Some n)); (_, v)] =>
      if String.eqb m "SetAttribute" then
        do (t, s) <- lift (xml_text L v) s;
        Ok VVoid (upd (fun y => match y with Elem e a k => Elem e (set_attr n t a) k | Text q => Text q end))
      else Bad
  | [(_, VPtr (Some l))] =>
      if String.eqb m "QueryBoolText" then put_query_as (TNum KBool) l (get_text x) s
      else if String.eqb m "QueryIntText" then put_query_as (TNum KInt) l (get_text x) s
      else if String.eqb m "QueryUnsignedText" then put_query_as (TNum KUInt) l (get_text x) s
      else if String.eqb m "QueryFloatText" then put_query_as (TFlt KFloat) l (get_text x) s
      else if String.eqb m "QueryDoubleText" then put_query_as (TFlt KDouble) l (get_text x) s
      else Bad
  | [(_, v)] =>
      if String.eqb m "SetText" then
        do (t, s) <- lift (xml_text L v) s; Ok VVoid (upd (set_text t))
      else
        match v with
        | VCStr (Some n) =>
            if String.eqb m "FirstChildElement" then
              Ok (VEl (option_map (fun i => p ++ [i]) (first_child n (kids_of x)))) s
            else if String.eqb m "InsertNewChildElement" then
              Ok (VEl (Some (p ++ [length (kids_of x)])))
                 (upd (fun y => match y with Elem e a k => Elem e a (k ++ [Elem n [] []]) | Text q => Text q end))
            else Bad
        | _ => Bad
        end
  | [] => if String.eqb m "GetText" then Ok (VCStr (get_text x)) s else Bad
  | _ => Bad
  end.

(** Index of the first child element. *)
Definition root_elem (ks : list node) : option nat :=
  match child_elems 0 ks with i :: _ => Some i | [] => None end.

(** Member functions of XMLDocument; the document is the tree of the frame. *)
Definition doc_method (m : string) (args : list arg) (s : st) : res val :=
  let ks := kids_of (s_tree s) in
  let w := s_world s in
  match args with
  | [] => if String.eqb m "RootElement" then Ok (VEl (option_map (fun i => [i]) (root_elem ks))) s else Bad
  | [(_, VCStr (Some n))] =>
      if String.eqb m "LoadFile" then
        match assoc n (w_files w) with
        | Some (CDoc d) => Ok (VErr true) (set_tree s (reload (Elem "" [] d)))
        | Some (CText t) =>
            match l_parse L t with
            | Some d => Ok (VErr true) (set_tree s (Elem "" [] d))
            | None => Ok (VErr false) s
            end
        | None => Ok (VErr false) s
        end
      else if String.eqb m "SaveFile" then
        if l_writable L n then
          Ok (VErr true) (set_world s (World (set_assoc n (CDoc ks) (w_files w)) (w_in w) (w_out w)))
        else Ok (VErr false) s
      else if String.eqb m "NewElement" then Ok (VNewEl n) s
      else Bad
  | [(_, VNewEl n)] =>
      if String.eqb m "InsertFirstChild" then Ok (VEl (Some [0])) (set_tree s (Elem "" [] (Elem n [] [] :: ks))) else Bad
  | _ => Bad
  end.

Definition str_method (t : string) (m : string) (args : list arg) (s : st) : res val :=
  match args with
  | [] =>
      if String.eqb m "c_str" then Ok (VCStr (Some (cut t))) s
      else if String.eqb m "length" then Ok (VSize (Some (String.length t))) s
      else Bad
  | [(_, VChr c)] => if String.eqb m "find" then Ok (VSize (find_chr c t 0)) s else Bad
  | [(_, VNum _ a); (_, VSize (Some b))] =>
      if (String.eqb m "substr" && (a =? 0)%Z)%bool then Ok (VStr (substring 0 b t)) s else Bad
  | _ => Bad
  end.

Definition map_method (l : list (val * val)) (m : string) (args : list arg) (s : st) : res val :=
  match args with
  | [] => if (String.eqb m "end" || String.eqb m "cend")%bool then Ok (VIter None) s else Bad
  | [(_, k)] =>
      if String.eqb m "find" then
        match k with
        | VUndef _ => UB
        | VCStr (Some x) => Ok (VIter (option_map (pair (VStr x)) (map_find (VStr x) l))) s
        | VStr _ | VEnum _ _ => Ok (VIter (option_map (pair k) (map_find k l))) s
        | _ => Bad
        end
      else Bad
  | _ => Bad
  end.

(** Member function [m] of the object [o] (found at [lv] if it is an lvalue). *)
Definition method (o : val) (lv : option lval) (m : string) (args : list arg) (s : st) : res val :=
  match o with
  | VUndef _ => UB
  | VEl None => UB
  | VEl (Some p) => need x <- at_path (s_tree s) p; el_method p x m args s
  | VDoc => doc_method m args s
  | VStr t => str_method t m args s
  | VMap l => map_method l m args s
  | VVec t l =>
      match args, lv with
      | [(_, v)], Some a =>
          if String.eqb m "push_back" then
            do (w, s) <- lift (conv L (match user_type L t with Some u => u | None => TOther "" end) v) s;
            store a (VVec t (l ++ [w])) s
          else Bad
      | _, _ => Bad
      end
  | _ => Bad
  end.

(** fmt text of an argument; enumerations through the generated formatter, which
    calls s_from_e (process_items.cpp:212-225). *)
Fixpoint fmt_texts (args : list arg) (s : st) : res (list string) :=
  match args with
  | [] => Ok [] s
  | (_, v) :: r =>
      do (t, s) <-
        match v with
        | VUndef _ => UB
        | VStr x => Ok x s
        | VCStr (Some x) => Ok x s
        | VNum KBool z => Ok (if (z =? 0)%Z then "false" else "true") s
        | VNum _ z => Ok (zdec z) s
        | VFlt k b => Ok (l_fprint L k b) s
        | VEnum _ _ =>
            do (x, s) <- call ["stfx"; "s_from_e"] [(None, v)] s;
            match x with VStr t => Ok t s | _ => Bad end
        | _ => Bad
        end;
      do (l, s) <- fmt_texts r s;
      Ok (t :: l) s
  end.

Definition std_fun (f : string) (args : list arg) (s : st) : res val :=
  let w := s_world s in
  match args with
  | [(_, VStr x)] =>
      if String.eqb f "stoi" then lift (sto_num L KInt x) s
      else if String.eqb f "stol" then lift (sto_num L KLong x) s
      else if String.eqb f "stoul" then lift (sto_num L KULong x) s
      else if String.eqb f "stof" then lift (sto_flt L KFloat x) s
      else if String.eqb f "stod" then lift (sto_flt L KDouble x) s
      else Bad
  | [(_, VNum KInt z)] => if String.eqb f "to_string" then Ok (VStr (zdec z)) s else Bad
  | [(_, VCStr (Some n)); (_, VCStr (Some mode))] =>
      if String.eqb f "fopen" then
        if String.eqb mode "r" then
          match assoc n (w_files w) with
          | Some (CText t) => Ok (VFile true) (set_world s (World (w_files w) (Some t) (w_out w)))
          | Some (CDoc _) => Bad
          | None => Ok (VFile false) s
          end
        else if String.eqb mode "w" then
          if l_writable L n
          then Ok (VFile true) (set_world s (World (set_assoc n (CText "") (w_files w)) (w_in w) (Some (n, ""))))
          else Ok (VFile false) s
        else Bad
      else Bad
  | [(_, VFile true)] =>
      if String.eqb f "fclose" then Ok VVoid (set_world s (World (w_files w) None None)) else Bad
  | [(Some l, _); (_, VNum KInt n); (_, VFile true)] =>
      if String.eqb f "fgets" then
        need t <- w_in w;
        match t with
        | EmptyString => Ok VNull s
        | _ =>
            let (a, b) := take_line (Z.to_nat (n - 1)) t in
            need s' <- put_lv l (VCStr (Some (cut a))) (set_world s (World (w_files w) (Some b) (w_out w)));
            Ok (VCStr (Some (cut a))) s'
        end
      else Bad
  | [(_, VStr x); (Some l, _); (_, VRegex r)] =>
      if String.eqb f "regex_search" then
        need rs <- rx_compile r;
        match rx_search rs x with
        | Some gs => need s' <- put_lv l (VMatch (x :: gs)) s; Ok (vbool true) s'
        | None => Ok (vbool false) s
        end
      else Bad
  | _ => Bad
  end.

(** fmt::println(m_file, format, ...) *)
Definition fmt_println (args : list arg) (s : st) : res val :=
  match args with
  | (_, VFile true) :: (_, VCStr (Some f)) :: r =>
      do (ts, s) <- fmt_texts r s;
      need t <- fmt_fill f ts;
      need (n, o) <- w_out (s_world s);
      let o' := (o ++ t ++ NL)%string in
      Ok VVoid (set_world s (World (set_assoc n (CText o') (w_files (s_world s))) (w_in (s_world s)) (Some (n, o'))))
  | _ => Bad
  end.

(** Conversion in functional notation to an enumeration. *)
Definition enum_cast (n : string) (v : val) : may val :=
  match v with
  | VUndef _ => MUB
  | VNum _ z => if enum_holds L n z then Yes (VEnum n z) else MUB
  | _ => MBad
  end.

(** A call whose function is named [q]. *)
Definition fun_call (q : list string) (args : list arg) (s : st) : res val :=
  match q with
  | [f] =>
      if is_local f s then Bad
      else if member_fun f then call [cls; f] args s
      else
        match user_type L f with
        | Some (TEnum n) => match args with [(_, v)] => lift (enum_cast n v) s | _ => Bad end
        | Some _ => Bad
        | None =>
            if String.eqb f "find_element" then
              match args with
              | [(_, VEl (Some p)); (_, VCStr (Some n))] =>
                  need x <- at_path (s_tree s) p;
                  Ok (VEl (option_map (fun i => p ++ [i]) (first_child n (kids_of x)))) s
              | [(_, VEl None); _] => UB
              | _ => Bad
              end
            else Bad
        end
  | [a; f] =>
      if String.eqb a "stfx" then call q args s
      else if String.eqb a "std" then std_fun f args s
      else if (String.eqb a "fmt" && String.eqb f "println")%bool then fmt_println args s
      else Bad
  | _ => Bad
  end.

Definition run_args (ev : expr -> st -> res val) : list expr -> st -> res (list arg) :=
  fix go (es : list expr) (s : st) {struct es} : res (list arg) :=
    match es with
    | [] => Ok [] s
    | e :: r =>
        let l := lvalue e s in
        do (v, s) <- ev e s;
        do (vs, s) <- go r s;
        Ok ((l, v) :: vs) s
    end.

(** Member of a value that is not an lvalue. *)
Definition val_member (v : val) (arrow : bool) (m : string) : may val :=
  match v with
  | VUndef _ => MUB
  | VIter None => MUB
  | VIter (Some (k, w)) =>
      if arrow then (if String.eqb m "second" then Yes w else if String.eqb m "first" then Yes k else MBad) else MBad
  | VStruct _ fs => if arrow then MBad else match assoc m fs with Some w => Yes w | None => MBad end
  | _ => MBad
  end.

Definition value_index (v i : val) : may val :=
  match v, i with
  | VMap _, VUndef _ => MUB
  | VMap l, _ => match map_find i l with Some w => Yes w | None => MBad end
  | VStr t, VNum _ z => match String.get (Z.to_nat z) t with Some c => Yes (VChr c) | None => MBad end
  | VMatch l, VNum _ z => match nth_error l (Z.to_nat z) with Some x => Yes (VMatch [x]) | None => MBad end
  | _, _ => MBad
  end.

Fixpoint ev (e : expr) (s : st) {struct e} : res val :=
  match e with
  | EId q =>
      match q with
      | [x] =>
          match lookup x (s_scopes s) with
          | Some v => Ok v s
          | None =>
              match assoc x (s_this s) with
              | Some v => Ok v s
              | None => need v <- plain_enumerator L (l_defs L) x; Ok v s
              end
          end
      | [a; b] =>
          match enumerator L a b with
          | Some v => Ok v s
          | None => if names_eqb q ["tinyxml2"; "XML_SUCCESS"] then Ok (VErr true) s else Bad
          end
      | _ => if names_eqb q ["std"; "string"; "npos"] then Ok (VSize None) s else Bad
      end
  | EStr t => Ok (VCStr (Some (cut t))) s
  | EChr t => match t with String c EmptyString => Ok (VChr c) s | _ => Bad end
  | ENum t => need z <- digits_val 0 false t; Ok (VNum KInt z) s
  | EBool b => Ok (vbool b) s
  | ENull => Ok VNull s
  | EMem arrow e1 m =>
      match lvalue e s with
      | Some l => need v <- get_lv l s; Ok v s
      | None => do (v, s) <- ev e1 s; lift (val_member v arrow m) s
      end
  | ECall f args =>
      match f with
      | EId q =>
          do (vs, s) <- run_args ev args s;
          fun_call q vs s
      | EMem arrow o m =>
          let l := lvalue o s in
          do (v, s) <- ev o s;
          do (vs, s) <- run_args ev args s;
          match v with
          | VMatch [x] => if (String.eqb m "str" && negb arrow)%bool then Ok (VStr x) s else Bad
          | VEl _ | VUndef TEl => if arrow then method v l m vs s else Bad
          | _ => if arrow then Bad else method v l m vs s
          end
      | _ => Bad
      end
  | EIdx a i =>
      do (v, s) <- ev a s;
      do (k, s) <- ev i s;
      lift (value_index v k) s
  | EAddr a => need l <- lvalue a s; Ok (VPtr (Some l)) s
  | ECast t a =>
      do (v, s) <- ev a s;
      need u <- named_type t s;
      match u, v with
      | TNum k, VEnum _ z => Ok (VNum k (to_kind L k z)) s
      | TNum _, _ => lift (conv L u v) s
      | _, _ => Bad
      end
  | EBin o a b =>
      match o with
      | b_assign =>
          do (v, s) <- ev b s;
          need l <- lvalue a s;
          match a with EIdx _ _ => assign_elem l v s | _ => assign l v s end
      | b_add_assign =>
          do (v, s) <- ev b s;
          need l <- lvalue a s;
          need old <- get_lv l s;
          match old, v with
          | VStr x, VStr y | VStr x, VCStr (Some y) => store l (VStr (x ++ y)) s
          | _, _ => Bad
          end
      | b_or =>
          do (v, s) <- ev a s;
          do (t, s) <- lift (truth v) s;
          if t then Ok (vbool true) s
          else do (w, s) <- ev b s; do (u, s) <- lift (truth w) s; Ok (vbool u) s
      | b_and =>
          do (v, s) <- ev a s;
          do (t, s) <- lift (truth v) s;
          if t then do (w, s) <- ev b s; do (u, s) <- lift (truth w) s; Ok (vbool u) s
          else Ok (vbool false) s
      | _ =>
          do (v, s) <- ev a s;
          do (w, s) <- ev b s;
          lift (binary L o v w) s
      end
  | ECond c a b =>
      do (v, s) <- ev c s;
      do (t, s) <- lift (truth v) s;
      if t then ev a s else ev b s
  | EList _ => Bad
  end.

(** *** Statements *)
Inductive ctl := CNext | CBreak | CCont | CRet (v : val).

Definition run_list (ex : stmt -> st -> res ctl) : list stmt -> st -> res ctl :=
  fix go (l : list stmt) (s : st) {struct l} : res ctl :=
    match l with
    | [] => Ok CNext s
    | c :: r =>
        do (k, s) <- ex c s;
        match k with CNext => go r s | _ => Ok k s end
    end.

(** Leaving blocks: the outermost [n] scopes remain. *)
Definition leave (n : nat) (s : st) : st :=
  set_scopes s (skipn (length (s_scopes s) - n) (s_scopes s)).
Definition scoped (s : st) (body : st -> res ctl) : res ctl :=
  do (k, s1) <- body (set_scopes s ([] :: s_scopes s));
  Ok k (leave (length (s_scopes s)) s1).

(** Initialiser lists of maps. *)
Definition run_pairs (ev : expr -> st -> res val) : list expr -> st -> list (val * val) -> res (list (val * val)) :=
  fix go (es : list expr) (s : st) (acc : list (val * val)) {struct es} :=
    match es with
    | [] => Ok acc s
    | e :: r =>
        match e with
        | EList [a; b] =>
            do (x, s) <- ev a s;
            do (y, s) <- ev b s;
            go r s (map_insert acc (x, y))
        | _ => Bad
        end
    end.
(** Element types of a map: literals become std::string. *)
Definition map_types (L : lang) (k v : ty) (l : list (val * val)) : may (list (val * val)) :=
  fold_right (fun p m =>
    match conv L k (fst p), conv L v (snd p), m with
    | Yes a, Yes b, Yes r => Yes ((a, b) :: r)
    | _, _, _ => MBad
    end) (Yes []) l.

Definition declare_as (x : string) (v : val) (s : st) : res ctl := need s' <- declare x v s; Ok CNext s'.

Definition exec_decl (t : ctype) (x : string) (i : option expr) (s : st) : res ctl :=
  match ct_args t with
  | [k; v] =>
      if names_eqb (ct_name t) ["std"; "map"] then
        need kt <- named_type k s;
        need vt <- named_type v s;
        match i with
        | Some (EList es) =>
            (* the name is already visible in its initialiser *)
            need s <- declare x (VUndef (TOther "map")) s;
            do (l, s) <- run_pairs ev es s [];
            do (l, s) <- lift (map_types L kt vt l) s;
            need s <- put_lv (LV false x []) (VMap l) s;
            Ok CNext s
        | _ => Bad
        end
      else Bad
  | [] =>
      match ct_ref t with
      | RPtr =>
          need u <- pointer_type (ct_name t) s;
          match i with
          | None => declare_as x (VUndef u) s
          | Some (EList []) => if names_eqb (ct_name t) ["std"; "FILE"] then declare_as x (VFile false) s else Bad
          | Some e =>
              do (v, s) <- ev e s;
              do (w, s) <- lift (conv L u v) s;
              declare_as x w s
          end
      | RRef => Bad
      | RVal =>
          if names_eqb (ct_name t) [""; "auto"] then
            match i with
            | Some e =>
                do (v, s) <- ev e s;
                match v with VUndef _ | VNull | VVoid => Bad | _ => declare_as x v s end
            | None => Bad
            end
          else if names_eqb (ct_name t) [""; "char"] then
            match i with
            | Some (EIdx (EId [y]) e) => do (_, s) <- ev e s; declare_as x (VUndef TCStr) s
            | _ => Bad
            end
          else
            need u <- named_type (ct_name t) s;
            match i with
            | None =>
                match u with
                | TOther n =>
                    if String.eqb n "doc" then declare_as x VDoc (set_tree s (Elem "" [] []))
                    else declare_as x (VUndef u) s
                | TStruct n =>
                    if (String.eqb n "read_item_S" && is_member "m_lookup" s)%bool then declare_as x read_item s
                    else need v <- init L (init_fuel L) false u; declare_as x v s
                | _ => need v <- init L (init_fuel L) false u; declare_as x v s
                end
            | Some (EList []) => need v <- init L (init_fuel L) true u; declare_as x v s
            | Some (EList [e]) | Some e =>
                do (v, s) <- ev e s;
                do (w, s) <- lift (conv L u v) s;
                declare_as x w s
            end
      end
  | _ => Bad
  end.

(** Iterations of a range-based for over the values [vs]. *)
Definition run_for (body : st -> res ctl) (x : string) : list val -> st -> res ctl :=
  fix go (vs : list val) (s : st) {struct vs} : res ctl :=
    match vs with
    | [] => Ok CNext s
    | v :: r =>
        do (k, s1) <- scoped s (fun s => need s' <- declare x v s; body s');
        match k with
        | CNext | CCont => go r s1
        | CBreak => Ok CNext s1
        | CRet w => Ok k s1
        end
    end.
(** What a range-based for runs over: copies of the elements of a vector, the child
    elements of an element. *)
Definition range (t : ctype) (v : val) (s : st) : option (list val) :=
  match v with
  | VVec n l =>
      let? u := named_type (ct_name t) s in
      match u with
      | TStruct m => if (String.eqb n m && match ct_ref t with RVal => true | _ => false end)%bool then Some l else None
      | _ => None
      end
  | VEl (Some p) =>
      if names_eqb (ct_name t) [""; "auto"] then
        let? x := at_path (s_tree s) p in
        Some (map (fun i => VEl (Some (p ++ [i]))) (child_elems 0 (kids_of x)))
      else None
  | _ => None
  end.

Fixpoint run_while (n : nat) (cond : st -> res val) (body : st -> res ctl) (s : st) : res ctl :=
  match n with
  | O => Fuel
  | S n =>
      do (v, s) <- cond s;
      do (t, s) <- lift (truth v) s;
      if t then
        do (k, s) <- scoped s body;
        match k with
        | CNext | CCont => run_while n cond body s
        | CBreak => Ok CNext s
        | CRet w => Ok k s
        end
      else Ok CNext s
  end.

(** The statements from the first label that fits. *)
Definition run_switch (ev : expr -> st -> res val) (ex : stmt -> st -> res ctl) (v : val)
    : list (option expr * list stmt) -> bool -> st -> res ctl :=
  fix go (cs : list (option expr * list stmt)) (hit : bool) (s : st) {struct cs} : res ctl :=
    match cs with
    | [] => Ok CNext s
    | (lab, b) :: r =>
        do (h, s) <-
          (if hit then Ok true s
           else match lab with
                | None => Ok true s
                | Some e => do (w, s) <- ev e s; lift (veq L v w) s
                end);
        if h then
          do (k, s) <- run_list ex b s;
          match k with CNext => go r true s | _ => Ok k s end
        else go r false s
    end.
(** The emitted switch has its default last, so cases are tried in order. *)
Definition default_last (cs : list (option expr * list stmt)) : bool :=
  match rev cs with
  | _ :: r => forallb (fun c => match fst c with Some _ => true | None => false end) r
  | [] => true
  end.

Fixpoint exec (c : stmt) (s : st) {struct c} : res ctl :=
  match c with
  | SExpr e => do (_, s) <- ev e s; Ok CNext s
  | SDecl t x i => exec_decl t x i s
  | SIf e a b =>
      do (v, s) <- ev e s;
      do (t, s) <- lift (truth v) s;
      if t then scoped s (run_list exec a) else scoped s (run_list exec b)
  | SFor t x e b =>
      do (v, s) <- ev e s;
      match v with
      | VUndef _ | VEl None => UB
      | _ => need vs <- range t v s; run_for (run_list exec b) x vs s
      end
  | SWhile e b => run_while wfuel (ev e) (run_list exec b) s
  | SSwitch e cs =>
      if default_last cs then
        do (v, s) <- ev e s;
        do (k, s) <- scoped s (run_switch ev exec v cs false);
        match k with CBreak => Ok CNext s | _ => Ok k s end
      else Bad
  | SBreak => Ok CBreak s
  | SContinue => Ok CCont s
  | SReturn e => do (v, s) <- ev e s; match v with VUndef _ => UB | _ => Ok (CRet v) s end
  | SBlock b => scoped s (run_list exec b)
  | STry a b =>
      match scoped s (run_list exec a) with
      | Exc s' => scoped (leave (length (s_scopes s)) s') (run_list exec b)
      | r => r
      end
  end.
Definition exec_list : list stmt -> st -> res ctl := run_list exec.
End Sem.

(** *** Functions *)
(** A parameter fits an argument (overload resolution among generated functions). *)
Definition param_fits (p : ctype * string) (a : arg) (s : st) : bool :=
  let t := fst p in
  match ct_ref t, ct_name t with
  | RPtr, [n] =>
      match snd a with
      | VPtr (Some l) => match get_lv l s with Some v => match ty_of v with TStruct m => String.eqb n m | _ => false end | None => false end
      | _ => false
      end
  | RPtr, q => match snd a with VEl _ => names_eqb q ["tinyxml2"; "XMLElement"] | _ => false end
  | _, [n] => match ty_of (snd a) with TStruct m | TEnum m => String.eqb n m | _ => false end
  | _, q =>
      match snd a with
      | VStr _ | VCStr (Some _) => names_eqb q ["std"; "string"]
      | VNum _ _ => names_eqb q [""; "bool"]
      | _ => false
      end
  end.
Fixpoint params_fit (ps : list (ctype * string)) (args : list arg) (s : st) : bool :=
  match ps, args with
  | [], [] => true
  | p :: r, a :: b => (param_fits p a s && params_fit r b s)%bool
  | _, _ => false
  end.

(** What a parameter becomes: variables of the callee, the element it gets, and what is
    copied back: object of the caller, variable of the callee. *)
Record bound := Bound { b_vars : scope; b_el : option (list nat); b_back : list (lval * string) }.

Definition bind_param (p : ctype * string) (a : arg) (s : st) : option bound :=
  let (t, x) := p in
  match ct_ref t, snd a with
  | RPtr, VPtr (Some l) =>
      let? v := get_lv l s in
      let y := String "*" x in
      Some (Bound [(x, VPtr (Some (LV false y []))); (y, v)] None [(l, y)])
  | RPtr, VEl (Some q) => Some (Bound [(x, VEl (Some []))] (Some q) [])
  | RPtr, VEl None => Some (Bound [(x, VEl None)] None [])
  | RRef, v =>
      match fst a with
      | Some l => Some (Bound [(x, v)] None [(l, x)])
      | None =>
          if names_eqb (ct_name t) ["std"; "string"] then
            match v with VStr _ => Some (Bound [(x, v)] None []) | VCStr (Some w) => Some (Bound [(x, VStr w)] None []) | _ => None end
          else None
      end
  | RVal, v =>
      match v with
      | VCStr (Some w) => Some (Bound [(x, VStr w)] None [])
      | VStr _ | VEnum _ _ | VNum _ _ => Some (Bound [(x, v)] None [])
      | _ => None
      end
  | _, _ => None
  end.
Fixpoint bind_params (ps : list (ctype * string)) (args : list arg) (s : st) : option bound :=
  match ps, args with
  | [], [] => Some (Bound [] None [])
  | p :: r, a :: b =>
      let? x := bind_param p a s in
      let? y := bind_params r b s in
      Some (Bound (b_vars x ++ b_vars y) (match b_el x with Some q => Some q | None => b_el y end) (b_back x ++ b_back y))
  | _, _ => None
  end.
(** The parameter names are all different. *)
Fixpoint distinct (l : list string) : bool :=
  match l with
  | [] => true
  | x :: r => (negb (existsb (String.eqb x) r) && distinct r)%bool
  end.

(** Copying back after the call; [s]: the caller, [s1]: the callee at its end. *)
Fixpoint copy_back (bs : list (lval * string)) (s1 s : st) : option st :=
  match bs with
  | [] => Some s
  | (l, x) :: r =>
      let? v := lookup x (s_scopes s1) in
      let? s' := put_lv l v s in
      copy_back r s1 s'
  end.
Definition return_to (s : st) (b : bound) (s1 : st) : option st :=
  let tree := match b_el b with
              | Some q => upd_path q (fun _ => s_tree s1) (s_tree s)
              | None => s_tree s
              end in
  copy_back (b_back b) s1 (St (s_scopes s) tree (s_this s1) (s_world s1)).

Definition is_method (fs : list fdef) (c f : string) : bool :=
  existsb (fun d => names_eqb (fd_name d) [c; f]) fs.

(** Types of parameters are looked up inside the class. *)
Definition param_visible (fs : list fdef) (c : string) (p : ctype * string) (s : st) : bool :=
  match ct_name (fst p) with
  | [n] => (negb (is_method fs c n) && match assoc n (s_this s) with Some _ => false | None => true end)%bool
  | _ => true
  end.

(** The functions of namespace stfx are no member functions. *)
Definition seen_this (c : string) (s : st) : scope := if String.eqb c "stfx" then [] else s_this s.

(** An argument without a value for a parameter taken by value. *)
Fixpoint undef_arg (ps : list (ctype * string)) (args : list arg) : bool :=
  match ps, args with
  | p :: r, a :: l =>
      (match ct_ref (fst p), snd a with RVal, VUndef _ => true | _, _ => false end || undef_arg r l)%bool
  | _, _ => false
  end.
(** Executes the body of [d] for the arguments. *)
Definition enter (L : lang) (fs : list fdef) (call : list string -> list arg -> st -> res val)
    (wf : nat) (d : fdef) (args : list arg) (s : st) : res val :=
  let c := match fd_name d with [c; _] => c | _ => "" end in
  let back s1 b := return_to s b (set_this s1 (if String.eqb c "stfx" then s_this s else s_this s1)) in
  if undef_arg (fd_params d) args then UB else
  need b <- bind_params (fd_params d) args s;
  if (distinct (map fst (b_vars b)) && forallb (fun p => param_visible fs c p (set_this s (seen_this c s))) (fd_params d))%bool then
    need t <- match b_el b with Some q => at_path (s_tree s) q | None => Some (Text "") end;
    let s0 := St [b_vars b] t (seen_this c s) (s_world s) in
    match exec_list L call c (is_method fs c) wf (fd_body d) s0 with
    | Ok k s1 =>
        need s2 <- back s1 b;
        match k, fd_type d with
        | CRet v, Some _ => Ok v s2
        | CNext, None => Ok VVoid s2
        | CNext, Some _ => UB
        | _, _ => Bad
        end
    | Exc s1 => need s2 <- back s1 b; Exc s2
    | UB => UB | Bad => Bad | Fuel => Fuel
    end
  else Bad.

(** A call: exactly one function of that name must fit. *)
Fixpoint call_fun (L : lang) (fs : list fdef) (wf : nat) (f : nat) (q : list string) (args : list arg) (s : st)
    {struct f} : res val :=
  match f with
  | O => Fuel
  | S f =>
      match filter (fun d => (names_eqb (fd_name d) q && params_fit (fd_params d) args s)%bool) fs with
      | [d] => enter L fs (call_fun L fs wf f) wf d args s
      | _ => Bad
      end
  end.
