(** Model of the index names and fixings: dal/indice/index.*, indexparse.cpp, index/equity.*, index/fx.*, parser/equity.cpp, parser/fx.cpp. *)
From Coq Require Import Ascii String ZArith List Bool.
From Verif Require Import Base OMap StringModel DateModel DateTimeModel ScheduleModel PathModel.
Import ListNotations.
Local Open Scope Z_scope.

(** * Positions in a String_ *)
(** size_t values are integers, a negative one standing for itself plus 2^64 (so npos is -1); strings are shorter than 2^63. *)
Definition npos : Z := -1.
(** basic_string::find_first_of(chars, from): characters are compared by the traits of String_. *)
Fixpoint find_in (chars : str) (s : str) (at_ : Z) : Z :=
  match s with [] => npos | c :: r => if existsb (ceq c) chars then at_ else find_in chars r (at_ + 1) end.
Definition find_first_of (chars s : str) (from : Z) : Z :=
  if from <? 0 then npos else find_in chars (skipn (Z.to_nat from) s) from.
(** basic_string::substr(pos, n). *)
Definition substr (s : str) (pos n : Z) : outcome str :=
  if (pos <? 0) || (Z.of_nat (List.length s) <? pos) then Throw
  else let t := skipn (Z.to_nat pos) s in Ok (if n <? 0 then t else firstn (Z.to_nat n) t).

(** * Indices *)
(** dal/currency/currency.hpp:14-21, dal/auto/MG_Ccy_enum.inc. *)
Inductive ccy := USD | EUR | GBP | JPY | AUD | CHF | CAD | CNY.
Definition ccy_names : list (string * ccy) :=
  [("USD", USD); ("EUR", EUR); ("GBP", GBP); ("JPY", JPY); ("AUD", AUD); ("CHF", CHF); ("CAD", CAD); ("CNY", CNY)]%string.
(** MG_Ccy_enum.inc:24-47 (String). *)
Definition ccy_string (c : ccy) : str :=
  lit match c with USD => "USD" | EUR => "EUR" | GBP => "GBP" | JPY => "JPY" | AUD => "AUD" | CHF => "CHF" | CAD => "CAD" | CNY => "CNY" end.
(** MG_Ccy_enum.inc:49-94. *)
Definition read_ccy (s : str) : outcome ccy := match s with [] => Throw | _ => read_enum ccy_names s end.

(** index/equity.hpp:12: the delivery is a cell: a date, a text or empty. *)
Inductive delivery := At (d : Z) | After (delay : str) | Spot.
Inductive index := Equity (name : str) (del : delivery) | Fx (dom fgn : ccy).
(** index/fx.cpp:15-18 (XName). *)
Definition fx_name (dom fgn : ccy) (invert : bool) : str :=
  lit "FX[" ++ ccy_string (if invert then dom else fgn) ++ lit "/" ++ ccy_string (if invert then fgn else dom) ++ lit "]".
(** index/equity.cpp:11-18, index/fx.hpp:17. *)
Definition index_name (i : index) : str :=
  match i with
  | Equity n d => lit "EQ[" ++ n ++ lit "]" ++
                  match d with After t => lit ">" ++ t | At d => lit "@" ++ lit (to_string d) | Spot => [] end
  | Fx dom fgn => fx_name dom fgn false
  end.

(** parser/equity.cpp:12-28. *)
Definition equity_parser (name : str) : outcome index :=
  let eq_start := find_first_of (lit "[") name 0 in
  let eq_stop := find_first_of (lit "]") name 0 in
  do eq_name <- substr name (eq_start + 1) (eq_stop - eq_start - 1);
  let tenor_start := find_first_of (lit "@>") name (eq_stop + 1) in
  if tenor_start =? npos then Ok (Equity eq_name Spot)
  else
    let rest := substr name (tenor_start + 1) (Z.of_nat (List.length name) - tenor_start - 1) in
    match nth_error name (Z.to_nat tenor_start) with
    | None => UB
    | Some c =>
      if ascii_dec c "@" then do t <- rest; do d <- from_string (string_of_list_ascii t); Ok (Equity eq_name (At d))
      else if ascii_dec c ">" then do t <- rest; Ok (Equity eq_name (After t))
      else Throw
    end.
(** parser/fx.cpp:11-20. *)
Definition fx_parser (name : str) : outcome index :=
  let start := find_first_of (lit "[") name 0 in
  let stop := find_first_of (lit "]") name 0 in
  let sep := find_first_of (lit "/") name 0 in
  if (start =? npos) || (stop =? npos) || (sep =? npos) then Throw else
  do fgn <- substr name (start + 1) (sep - start - 1);
  do dom <- substr name (sep + 1) (stop - sep - 1);
  do d <- read_ccy dom; do f <- read_ccy fgn;
  Ok (Fx d f).

(** indexparse.cpp:19,44-47: the parsers registered, by prefix; the first registration of a prefix stays. *)
Definition parsers : Type := omap str (str -> outcome index).
Definition register (ps : parsers) (prefix : str) (p : str -> outcome index) : parsers := minsert ci_compare ps prefix p.
(** parser/init.cpp:17-20: what the library registers. *)
Definition library_parsers : parsers := register [] (lit "EQ") equity_parser.
(** indexparse.cpp:17,21-29,35-39: a name without : or [ gives a null pointer. *)
Definition parse_index (ps : parsers) (name : str) : outcome (option index) :=
  let stop := find_first_of (lit ":[") name 0 in
  if stop =? npos then Ok None else
  do ac <- substr name 0 stop;
  match mfind ci_compare ps ac with None => Throw | Some p => do i <- p name; Ok (Some i) end.
(** indexparse.cpp:49. *)
Definition clone_index (ps : parsers) (i : index) : outcome (option index) := parse_index ps (index_name i).

(** * Fixings *)
Section Fixings.
Context {A : Arith}.
(** index.hpp:11-20: the histories by name; a handle may be empty. The environment may hold no FixingsAccess_ at all. *)
Definition access : Type := omap str (option fixings).
Definition fetch (h : access) (name : str) : option fixings := match mfind ci_compare h name with Some v => v | None => None end.
(** platform.hpp:56 INF = 1e29. *)
Definition minus_inf : num := nsub (of_Z 0) (of_Z (10 ^ 29)).
(** index.cpp:11-25: with quiet and no FixingsAccess_ the null pointer is dereferenced. *)
Definition past_fixing (env : option access) (name : str) (t : datetime) (quiet : bool) : outcome num :=
  match env with
  | None => if quiet then UB else Throw
  | Some h =>
    match fetch h name with
    | None => if quiet then Ok minus_inf else Throw
    | Some f => match find_fix f t with Some x => Ok x | None => if quiet then Ok minus_inf else Throw end
    end
  end.
(** index.cpp:27-29 and index/fx.cpp:10-13. *)
Definition index_fixing (env : option access) (i : index) (t : datetime) : outcome num :=
  match i with
  | Equity _ _ => past_fixing env (index_name i) t false
  | Fx dom fgn =>
    do test <- past_fixing env (fx_name dom fgn false) t true;
    if nltb minus_inf test then Ok test else do x <- past_fixing env (fx_name dom fgn true) t false; Ok (ndiv (of_Z 1) x)
  end.
End Fixings.
