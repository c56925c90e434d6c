(* CardModel.v - domain/languages/lexers/cardinality.  Definitions only.
   uint is N (values are below 2^64 on a 64-bit platform). *)
From Coq Require Import Strings.String Strings.Byte.
From Verif Require Export Go DomainModel.
Open Scope list_scope.

(* range.go:3-31 (max nil is None); specific.go:3-30: exactly one of amount and
   range is set, by the two constructors used *)
Inductive specific : Type := SAmount (n : N) | SRange (min : N) (max : option N).
(* cardinality.go:3-47: exactly one kind is set, by the five constructors used *)
Inductive cardinality : Type := COptional | CMandatory | CNonZero | CZero | CSpecific (s : specific).

(* specific.go:46-54 Delimiter *)
Definition specific_delimiter (s : specific) : N * option N :=
  match s with SAmount n => (n, Some n) | SRange min max => (min, max) end.
(* specific.go:33-43 IsValid *)
Definition specific_is_valid (s : specific) (amount : N) : bool :=
  let '(min, pmax) := specific_delimiter s in
  let match_min := (min <=? amount)%N in
  match pmax with None => match_min | Some max => match_min && (amount <=? max)%N end.
(* cardinality.go:63-86 Delimiter *)
Definition delimiter (c : cardinality) : N * option N :=
  match c with
  | COptional => (0, Some 1)
  | CMandatory => (1, Some 1)
  | CNonZero => (1, None)
  | CZero => (0, None)
  | CSpecific s => specific_delimiter s
  end%N.
(* cardinality.go:50-60 IsValid *)
Definition is_valid (c : cardinality) (amount : N) : bool :=
  let '(min, pmax) := delimiter c in
  let match_min := (min <=? amount)%N in
  match pmax with None => match_min | Some max => match_min && (amount <=? max)%N end.

(* ---- builders ---- *)
(* builder.go:5-23 *)
Record cb_builder := { cb_opt : bool; cb_man : bool; cb_non : bool; cb_zero : bool; cb_spec : option specific }.
Definition cb_init : cb_builder := {| cb_opt := false; cb_man := false; cb_non := false; cb_zero := false; cb_spec := None |}.
Inductive cb_op := CBCreate | CBIsOptional | CBIsMandatory | CBIsNonZeroMultiple | CBIsZeroMultiple
  | CBWithSpecific (s : option specific) | CBNow.
(* builder.go:26-58 *)
Definition cb_step (s : cb_builder) (o : cb_op) : cb_builder :=
  match o with
  | CBCreate => cb_init
  | CBIsOptional => {| cb_opt := true; cb_man := cb_man s; cb_non := cb_non s; cb_zero := cb_zero s; cb_spec := cb_spec s |}
  | CBIsMandatory => {| cb_opt := cb_opt s; cb_man := true; cb_non := cb_non s; cb_zero := cb_zero s; cb_spec := cb_spec s |}
  | CBIsNonZeroMultiple => {| cb_opt := cb_opt s; cb_man := cb_man s; cb_non := true; cb_zero := cb_zero s; cb_spec := cb_spec s |}
  | CBIsZeroMultiple => {| cb_opt := cb_opt s; cb_man := cb_man s; cb_non := cb_non s; cb_zero := true; cb_spec := cb_spec s |}
  | CBWithSpecific x => {| cb_opt := cb_opt s; cb_man := cb_man s; cb_non := cb_non s; cb_zero := cb_zero s; cb_spec := x |}
  | CBNow => s
  end.
(* builder.go:61-83 Now *)
Definition cb_now (s : cb_builder) : res cardinality :=
  if cb_opt s then Ok COptional
  else if cb_man s then Ok CMandatory
  else if cb_non s then Ok CNonZero
  else if cb_zero s then Ok CZero
  else match cb_spec s with Some x => Ok (CSpecific x) | None => Err end.

(* specific_builder.go: a range is (min, max) *)
Record sp_builder := { spb_amount : option N; spb_range : option (N * option N) }.
Definition sp_init : sp_builder := {| spb_amount := None; spb_range := None |}.
Inductive sp_op := SPCreate | SPWithAmount (n : N) | SPWithRange (r : option (N * option N)) | SPNow.
(* specific_builder.go:21-37 *)
Definition sp_step (s : sp_builder) (o : sp_op) : sp_builder :=
  match o with
  | SPCreate => sp_init
  | SPWithAmount n => {| spb_amount := Some n; spb_range := spb_range s |}
  | SPWithRange r => {| spb_amount := spb_amount s; spb_range := r |}
  | SPNow => s
  end.
(* specific_builder.go:40-54 Now *)
Definition sp_now (s : sp_builder) : res specific :=
  match spb_amount s with
  | Some n => if (n <=? 0)%N then Err else Ok (SAmount n)
  | None => match spb_range s with Some (min, max) => Ok (SRange min max) | None => Err end
  end.
(* range_builder.go: never fails, no comparison of minimum and maximum *)
Record rg_builder := { rgb_min : N; rgb_max : option N }.
Definition rg_init : rg_builder := {| rgb_min := 0; rgb_max := None |}.
Inductive rg_op := RGCreate | RGWithMinimum (n : N) | RGWithMaximum (n : N) | RGNow.
(* range_builder.go:18-32 *)
Definition rg_step (s : rg_builder) (o : rg_op) : rg_builder :=
  match o with
  | RGCreate => rg_init
  | RGWithMinimum n => {| rgb_min := n; rgb_max := rgb_max s |}
  | RGWithMaximum n => {| rgb_min := rgb_min s; rgb_max := Some n |}
  | RGNow => s
  end.
(* range_builder.go:35-41 Now *)
Definition rg_now (s : rg_builder) : res (N * option N) := Ok (rgb_min s, rgb_max s).

(* ---- text form ---- *)
Definition lbrace : byte := "{"%byte.
Definition rbrace : byte := "}"%byte.
Definition comma : byte := ","%byte.

(* specific_adapter.go:39-84 ToSpecific, with prefix "{", suffix "}" and separator
   "," (sdk.go:25-40).  The tests look at [content], the cuts are made on the
   trimmed text. *)
Definition to_specific (content : bytes) : res specific :=
  let trimmed := trim_space content in
  let trimmed := if has_prefix [lbrace] content then tl trimmed else trimmed in
  let trimmed := if has_suffix [rbrace] content then removelast trimmed else trimmed in
  match strsplit [comma] trimmed with
  | [a] =>
    match atoi a with
    | None => Err
    | Some z => sp_now (run sp_step sp_init [SPWithAmount (to_uint64 z)])
    end
  | [a; b] =>
    match atoi a with
    | None => Err
    | Some min =>
      let t := trim_space b in
      match t with
      | [] =>
        let* r := rg_now (run rg_step rg_init [RGWithMinimum (to_uint64 min)]) in
        sp_now (run sp_step sp_init [SPWithRange (Some r)])
      | _ =>
        match atoi t with
        | None => Err
        | Some max =>
          let* r := rg_now (run rg_step rg_init [RGWithMinimum (to_uint64 min); RGWithMaximum (to_uint64 max)]) in
          sp_now (run sp_step sp_init [SPWithRange (Some r)])
        end
      end
    end
  | _ => sp_now (run sp_step sp_init [])
  end.

(* adapter.go:34-54 ToCardinality, with "+", "*", "?" (sdk.go:4-17) *)
Definition to_cardinality (content : bytes) : res cardinality :=
  let trimmed := trim_space content in
  if bytes_eqb trimmed (bs "+") then cb_now (run cb_step cb_init [CBIsNonZeroMultiple])
  else if bytes_eqb trimmed (bs "*") then cb_now (run cb_step cb_init [CBIsZeroMultiple])
  else if bytes_eqb trimmed (bs "?") then cb_now (run cb_step cb_init [CBIsOptional])
  else
    let* s := to_specific trimmed in
    cb_now (run cb_step cb_init [CBWithSpecific (Some s)]).

(* specific_adapter.go:87-103 ToPatternString *)
Definition specific_pattern (s : specific) : bytes :=
  match s with
  | SAmount n => [lbrace] ++ itoa n ++ [rbrace]
  | SRange min (Some max) => [lbrace] ++ itoa min ++ [comma] ++ itoa max ++ [rbrace]
  | SRange min None => [lbrace] ++ itoa min ++ [comma] ++ [rbrace]
  end.
(* adapter.go:57-73 ToPatternString: a mandatory cardinality has a nil Specific,
   on which specific.IsAmount() panics *)
Definition to_pattern_string (c : cardinality) : res bytes :=
  match c with
  | COptional => Ok (bs "?")
  | CNonZero => Ok (bs "+")
  | CZero => Ok (bs "*")
  | CSpecific s => Ok (specific_pattern s)
  | CMandatory => Panic
  end.
