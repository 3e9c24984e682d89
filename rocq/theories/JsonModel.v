(** dal/storage/json.cpp: objects written as JSON text and built from it.  The text is read by RapidJSON, which is not part of the repository:
    what it makes of a text is modelled here from its documentation (RFC 8259, default flags).  The classes write and read their members through
    dal/storage/archive.hpp. *)
From Coq Require Import String Ascii ZArith List Bool DecimalString.
From Verif Require Import Base DateModel StringModel DictModel SplatModel SplatFileModel.
Import ListNotations.
Open Scope Z_scope.

(** * RapidJSON: documents.  A number is kept as its text. *)
Inductive json : Type := JNull | JBool (b : bool) | JNum (t : str) | JStr (s : str) | JArr (l : list json) | JObj (l : list (str * json)).

Definition white (c : ascii) : bool := existsb (Ascii.eqb c) [" "%char; "009"%char; "010"%char; "013"%char].
Fixpoint skip_white (s : str) : str := match s with c :: r => if white c then skip_white r else s | [] => [] end.
(** the rest of a string after its opening quote.  The escapes \u are not modelled (they count as errors); a control character is an error *)
Fixpoint parse_text (s : str) : option (str * str) :=
  match s with
  | [] => None
  | c :: r =>
      if Ascii.eqb c quote then Some ([], r)
      else if Ascii.eqb c "\" then
        match r with
        | e :: q =>
            match (if Ascii.eqb e quote then Some quote else if Ascii.eqb e "\" then Some "\"%char else if Ascii.eqb e "/" then Some "/"%char
                   else if Ascii.eqb e "b" then Some "008"%char else if Ascii.eqb e "f" then Some "012"%char else if Ascii.eqb e "n" then Some "010"%char
                   else if Ascii.eqb e "r" then Some "013"%char else if Ascii.eqb e "t" then Some "009"%char else None) with
            | Some x => match parse_text q with Some (t, w) => Some (x :: t, w) | None => None end
            | None => None
            end
        | [] => None
        end
      else if Nat.ltb (nat_of_ascii c) 32 then None
      else match parse_text r with Some (t, w) => Some (c :: t, w) | None => None end
  end.
(** the characters of numbers: no other can follow a number in a document *)
Definition in_number (c : ascii) : bool := existsb (Ascii.eqb c) (lit "0123456789.eE+-").
Fixpoint span_number (s : str) : str * str :=
  match s with c :: r => if in_number c then (let '(t, q) := span_number r in (c :: t, q)) else ([], s) | [] => ([], []) end.
(** [-] digits without leading zeros [. digits] [exponent] *)
Definition json_number (t : str) : bool :=
  let t1 := match t with c :: r => if Ascii.eqb c "-" then r else t | [] => [] end in
  let '(n, r) := skip_digits t1 in
  match n with
  | O => false
  | S k =>
      (Nat.eqb k 0 || negb (match t1 with c :: _ => Ascii.eqb c "0" | [] => false end)) &&
      match r with
      | c :: r' => if Ascii.eqb c "." then (let '(m, q) := skip_digits r' in match m with O => false | S _ => exponent q end) else exponent r
      | [] => true
      end
  end.
(** a word such as true: the rest after it *)
Fixpoint after (w s : str) : option str :=
  match w, s with [], _ => Some s | a :: w', c :: r => if Ascii.eqb a c then after w' r else None | _, [] => None end.
Definition words : list (str * json) := [(lit "null", JNull); (lit "true", JBool true); (lit "false", JBool false)].
Fixpoint parse_word (ws : list (str * json)) (s : str) : option (json * str) :=
  match ws with [] => None | (w, j) :: r => match after w s with Some q => Some (j, q) | None => parse_word r s end end.
(** a value, the members of an object from the quote of a name on, the elements of an array from the first on *)
Fixpoint parse_value (fuel : nat) (s : str) : option (json * str) :=
  match fuel with
  | O => None
  | S f =>
      match s with
      | [] => None
      | c :: r =>
          if Ascii.eqb c quote then match parse_text r with Some (t, q) => Some (JStr t, q) | None => None end
          else if Ascii.eqb c "{" then
            match skip_white r with
            | [] => None
            | d :: q => if Ascii.eqb d "}" then Some (JObj [], q)
                        else match parse_members f (d :: q) with Some (l, w) => Some (JObj l, w) | None => None end
            end
          else if Ascii.eqb c "[" then
            match skip_white r with
            | [] => None
            | d :: q => if Ascii.eqb d "]" then Some (JArr [], q)
                        else match parse_elements f (d :: q) with Some (l, w) => Some (JArr l, w) | None => None end
            end
          else if in_number c then (let '(t, q) := span_number (c :: r) in if json_number t then Some (JNum t, q) else None)
          else parse_word words (c :: r)
      end
  end
with parse_members (fuel : nat) (s : str) : option (list (str * json) * str) :=
  match fuel with
  | O => None
  | S f =>
      match s with
      | [] => None
      | c :: r =>
          if Ascii.eqb c quote then
            match parse_text r with
            | None => None
            | Some (k, r1) =>
                match skip_white r1 with
                | [] => None
                | d :: r2 =>
                    if Ascii.eqb d ":" then
                      match parse_value f (skip_white r2) with
                      | None => None
                      | Some (v, r3) =>
                          match skip_white r3 with
                          | [] => None
                          | e :: r4 =>
                              if Ascii.eqb e "}" then Some ([(k, v)], r4)
                              else if Ascii.eqb e comma then match parse_members f (skip_white r4) with Some (l, w) => Some ((k, v) :: l, w) | None => None end
                              else None
                          end
                      end
                    else None
                end
            end
          else None
      end
  end
with parse_elements (fuel : nat) (s : str) : option (list json * str) :=
  match fuel with
  | O => None
  | S f =>
      match parse_value f s with
      | None => None
      | Some (v, r3) =>
          match skip_white r3 with
          | [] => None
          | e :: r4 =>
              if Ascii.eqb e "]" then Some ([v], r4)
              else if Ascii.eqb e comma then match parse_elements f (skip_white r4) with Some (l, w) => Some (v :: l, w) | None => None end
              else None
          end
      end
  end.
(** one value and nothing after it; the text ends at a null character (src.c_str()).  None: the document stays null *)
Definition parse (s : str) : option json :=
  match parse_value (length s) (skip_white s) with
  | Some (j, r) => match skip_white r with [] => Some j | c :: _ => if Ascii.eqb c nul then Some j else None end
  | None => None
  end.

(** HasMember and operator[]: on a value that is not an object, or for a name that is not there, RapidJSON asserts *)
Fixpoint lookup (l : list (str * json)) (n : str) : option json :=
  match l with [] => None | (k, v) :: r => if list_eq_dec ascii_dec k n then Some v else lookup r n end.
Definition has_member (d : json) (n : str) : outcome bool := match d with JObj l => Ok (match lookup l n with Some _ => true | None => false end) | _ => UB end.
Definition member (d : json) (n : str) : outcome json := match d with JObj l => match lookup l n with Some v => Ok v | None => UB end | _ => UB end.
(** IsInt: whole numbers of 32 bits, written without point or exponent; IsDouble: numbers with one of these, or too large for 64 bits *)
Definition whole (t : str) : option Z := match NilZero.int_of_string (string_of_list_ascii t) with Some i => Some (Z.of_int i) | None => None end.
Definition json_int (t : str) : option Z :=
  match whole t with Some z => if (-2147483648 <=? z) && (z <=? 2147483647) then Some z else None | None => None end.
Definition json_double (t : str) : bool :=
  match whole t with Some z => (z <? -9223372036854775808) || (18446744073709551615 <? z) | None => true end.

(** * Objects: members are single values, vectors, matrices (with their number of columns) and references *)
(** a literal with ' for the double quote *)
Definition dq (s : string) : str := map (fun c => if Ascii.eqb c "'" then quote else c) (lit s).
Section Json.
Variables N T : Type.
(** double and DateTime_, with the routines that print and read them: std::to_string (strings.cpp:49), the conversion of an int or bool to double,
    RapidJSON's GetDouble, DateTime::ToString and FromString, and EDateTime for a number (json.cpp:209-213) *)
Variable of_int : Z -> N.
Variable show_double : N -> str.
Variable value_of : str -> N.
Variable show_time : T -> str.
Variable read_time : str -> outcome T.
Variable time_of : N -> outcome T.
Notation cell := (DictModel.cell N T).
Inductive atom : Type := ANum (x : N) | AInt (z : Z) | ABool (b : bool) | AStr (s : str) | ADate (d : Z) | ATime (t : T) | ACell (c : cell).
Inductive akind : Type := KNum | KInt | KBool | KStr | KDate | KTime | KCell.
Definition akind_of (a : atom) : akind :=
  match a with ANum _ => KNum | AInt _ => KInt | ABool _ => KBool | AStr _ => KStr | ADate _ => KDate | ATime _ => KTime | ACell _ => KCell end.
Inductive value : Type := VOne (a : atom) | VVec (k : akind) (l : list atom) | VMat (k : akind) (w : Z) (m : list (list atom)) | VRef (a : nat).
Inductive kind : Type := One (k : akind) | Vec (k : akind) | Mat (k : akind) | Ref.
Definition kind_of (v : value) : kind := match v with VOne a => One (akind_of a) | VVec k _ => Vec k | VMat k _ _ => Mat k | VRef _ => Ref end.
Record object := Object { otype : str; members : list (str * value) }.

(** ** Writing *)
(** json.cpp:104 *)
Definition quoted (s : str) : str := quote :: s ++ [quote].
(** json.cpp:107-124 *)
Definition cell_text (c : cell) : str :=
  match c with
  | CBool b => lit (if b then "true" else "false")
  | CDate d => quoted (list_ascii_of_string (DateModel.to_string d))
  | CTime t => quoted (show_time t)
  | CStr s => quoted s
  | CNum x => show_double x
  | CEmpty => quoted []
  end.
(** json.cpp:91-107: elements of vectors and matrices *)
Definition atom_text (a : atom) : str :=
  match a with
  | ANum x => show_double x | AInt z => show_double (of_int z) | ABool b => lit (if b then "true" else "false")
  | AStr s => quoted s | ADate d => quoted (list_ascii_of_string (DateModel.to_string d)) | ATime t => quoted (show_time t) | ACell c => cell_text c
  end.
(** a single value goes through Archive::Store_ (archive.hpp:30-33, 115-117), which has no assignment from int or bool: they become doubles *)
Definition single_text (a : atom) : str :=
  match a with AInt z => show_double (of_int z) | ABool b => show_double (of_int (if b then 1 else 0)) | _ => atom_text a end.
(** json.cpp:126-136, 145-156 *)
Fixpoint joined (sep : str) (l : list str) : str := match l with [] => [] | [t] => t | t :: r => t ++ sep ++ joined sep r end.
Definition vector_text (l : list atom) : str := lit "[" ++ joined (lit ",") (map atom_text l) ++ lit "]".
Definition matrix_text (w : Z) (m : list (list atom)) : str :=
  dq "{ 'rows': " ++ show_int (zlen m) ++ comma :: newline :: dq "'cols': " ++ show_int w ++ comma :: newline :: dq "'vals': [" ++
  joined (lit ", ") (map atom_text (concat m)) ++ lit "]}".

(** sharedTags_: the objects written so far, with their tags; json.cpp:69 *)
Definition tags := list (nat * str).
Fixpoint tag_for (s : tags) (a : nat) : option str := match s with [] => None | (b, t) :: r => if Nat.eqb a b then Some t else tag_for r a end.
Definition new_tag (s : tags) : str := show_int (1 + zlen s).
(** json.cpp:56 Prep, :57-61 StoreRefTag, :74-78 SetType *)
Definition prep (empty : bool) : str := if empty then lit "{" ++ [newline] else comma :: [newline].
Definition tag_entry (empty : bool) (t : str) : str := prep empty ++ dq "'$tag': '" ++ t ++ [quote].
Definition type_entry (empty : bool) (t : str) : str := prep empty ++ dq "'~type': '" ++ t ++ [quote].
(** json.cpp:80-88 Child, in an object whose type is written: the name is written the first time a child is asked for (children_ is a std::map) *)
Definition name_entry (seen : list str) (n : str) : str := if existsb (ci_eqb n) seen then [] else prep false ++ quoted n ++ lit ": ".
(** The members of an object, each through Archive::Utils::Set (archive.hpp:115-122, archive.cpp:17-23): an object already written is stored as its
    tag, a new one gets the next tag and is written in full.  A reference under a name that was used before, on which StoreRefTag asserts, is written like any other.  Optional members are left out by their class, multiple ones have numbered names
    (archive.hpp:125-139): [members] lists what is written.  [heap] gives the objects by address, [fuel] bounds the depth of new objects. *)
Variable heap : nat -> object.
Definition member_text (v : value) : str :=
  match v with VOne a => single_text a | VVec _ l => vector_text l | VMat _ w m => matrix_text w m | VRef _ => [] end.
Fixpoint write_members (fuel : nat) : list (str * value) -> list str -> tags -> outcome (str * tags) :=
  fix each (l : list (str * value)) (seen : list str) (s : tags) :=
    match l with
    | [] => Ok ([], s)
    | (n, VRef b) :: r =>
        match tag_for s b with
        | Some t => do (x, s') <- each r (n :: seen) s; Ok (name_entry seen n ++ (tag_entry true t ++ lit "}") ++ x, s')
        | None =>
            match fuel with
            | O => OutOfFuel
            | S f =>
                let t := new_tag s in
                do (y, s1) <- write_members f (members (heap b)) [] ((b, t) :: s);
                do (x, s') <- each r (n :: seen) s1;
                Ok (name_entry seen n ++ (tag_entry true t ++ type_entry false (otype (heap b)) ++ y ++ lit "}") ++ x, s')
            end
        end
    | (n, v) :: r => do (x, s') <- each r (n :: seen) s; Ok (name_entry seen n ++ member_text v ++ x, s')
    end.
(** json.cpp:340-346 WriteString, :333-338 WriteFile: the object itself has no tag *)
Definition write_string (fuel : nat) (root : nat) : outcome str :=
  do (y, _) <- write_members fuel (members (heap root)) [] [];
  Ok (type_entry true (otype (heap root)) ++ y ++ lit "}").

(** ** Reading *)
(** json.cpp:184-217 *)
Definition e_double (d : json) : outcome N :=
  match d with JNum t => if json_double t then Ok (value_of t) else match json_int t with Some _ => Ok (value_of t) | None => Throw end | _ => Throw end.
Definition e_int (d : json) : outcome Z := match d with JNum t => match json_int t with Some z => Ok z | None => Throw end | _ => Throw end.
Definition e_bool (d : json) : outcome bool := match d with JBool b => Ok b | _ => Throw end.
Definition e_string (d : json) : outcome str := match d with JStr s => Ok (c_str s) | _ => Throw end.
Definition e_date (d : json) : outcome Z :=
  match d with
  | JNum t => match json_int t with Some z => Ok (from_excel z) | None => Throw end
  | JStr s => DateModel.from_string (string_of_list_ascii (c_str s))
  | _ => Throw
  end.
Definition e_time (d : json) : outcome T :=
  match d with
  | JNum t => if json_double t then time_of (value_of t) else Throw
  | JStr s => read_time (c_str s)
  | _ => Throw
  end.
(** json.cpp:218-237 ECell: the patterns \d{4}-\d{2}-\d{2} and \d{4}-\d{2}-\d{2} \d{2}:\d{2}:\d{2}, with d for a digit *)
Fixpoint matches (p s : str) : bool :=
  match p, s with
  | [], [] => true
  | x :: p', c :: s' => (if Ascii.eqb x "d" then digit c else Ascii.eqb x c) && matches p' s'
  | _, _ => false
  end.
Definition date_pattern : str := lit "dddd-dd-dd".
Definition time_pattern : str := lit "dddd-dd-dd dd:dd:dd".
Definition e_cell (d : json) : outcome cell :=
  match d with
  | JNum t => if json_double t then Ok (CNum (value_of t)) else Throw
  | JBool b => Ok (CBool b)
  | JStr s =>
      let s := c_str s in
      if matches date_pattern s then do d <- DateModel.from_string (string_of_list_ascii s); Ok (CDate d)
      else if matches time_pattern s then do t <- read_time s; Ok (CTime t)
      else Ok (CStr s)
  | JNull => Ok CEmpty
  | _ => Throw
  end.
Definition read_atom (k : akind) (d : json) : outcome atom :=
  match k with
  | KNum => do x <- e_double d; Ok (ANum x) | KInt => do x <- e_int d; Ok (AInt x) | KBool => do x <- e_bool d; Ok (ABool x)
  | KStr => do x <- e_string d; Ok (AStr x) | KDate => do x <- e_date d; Ok (ADate x) | KTime => do x <- e_time d; Ok (ATime x)
  | KCell => do x <- e_cell d; Ok (ACell x)
  end.
(** json.cpp:164-172 AsVector *)
Fixpoint read_atoms (k : akind) (l : list json) : outcome (list atom) :=
  match l with [] => Ok [] | d :: r => do a <- read_atom k d; do q <- read_atoms k r; Ok (a :: q) end.
Definition as_vector (k : akind) (d : json) : outcome (list atom) := match d with JArr l => read_atoms k l | _ => Throw end.
(** json.cpp:173-181 AsMatrix *)
Fixpoint cut_rows (w n : nat) (l : list atom) : list (list atom) := match n with O => [] | S k => firstn w l :: cut_rows w k (skipn w l) end.
Definition as_matrix (w : Z) (l : list atom) : outcome (list (list atom)) :=
  if (0 <? w) && (zlen l mod w =? 0) then Ok (cut_rows (Z.to_nat w) (Z.to_nat (zlen l / w)) l) else Throw.
(** json.cpp:264-290.  View_ has no single times or cells (archive.hpp:64-79): no class asks for [One KTime] or [One KCell].  A dictionary is its text. *)
Definition read_value (k : kind) (d : json) : outcome value :=
  match k with
  | One a => do x <- read_atom a d; Ok (VOne x)
  | Vec a => do l <- as_vector a d; Ok (VVec a l)
  | Mat a => do c <- member d (lit "cols"); do w <- e_int c; do v <- member d (lit "vals"); do l <- as_vector a v; do m <- as_matrix w l; Ok (VMat a w m)
  | Ref => Throw
  end.
(** json.cpp:253-257 Tag, :293-297 Type *)
Definition label (l : str) (d : json) : outcome str := do h <- has_member d l; if h then (do v <- member d l; e_string v) else Ok [].
(** What a class reads (the generated MG_*_Read.inc files, archive.hpp:141-162): members that must be there, optional ones, and numbered ones as long
    as the next number is there.  Which are there is looked up first here, and while reading there. *)
Inductive presence := Always | Optional | Multiple.
Definition field := (str * presence * kind)%type.
Fixpoint numbered (d : json) (n : str) (k : kind) (i fuel : nat) : outcome (list (str * kind)) :=
  match fuel with
  | O => OutOfFuel
  | S f => let c := n ++ show_int (Z.of_nat i) in do h <- has_member d c; if h then (do r <- numbered d n k (S i) f; Ok ((c, k) :: r)) else Ok []
  end.
Definition size (d : json) : nat := match d with JObj l => length l | _ => 0%nat end.
Fixpoint present (d : json) (fs : list field) : outcome (list (str * kind)) :=
  match fs with
  | [] => Ok []
  | (n, Always, k) :: r => do q <- present d r; Ok ((n, k) :: q)
  | (n, Optional, k) :: r => do h <- has_member d n; do q <- present d r; Ok (if h then (n, k) :: q else q)
  | (n, Multiple, k) :: r => do a <- numbered d n k 0 (S (size d)); do q <- present d r; Ok (a ++ q)
  end.
(** archive.hpp:47-50 Built_, archive.cpp:27-40 Extract and TheBuilders, as in ShareModel *)
Definition known := list (str * nat).
Fixpoint handle_for (k : known) (t : str) : option nat := match k with [] => None | (u, h) :: r => if ci_eqb u t then Some h else handle_for r t end.
Variable schema : str -> option (list field).
Definition built := list object.
Definition extract (build : list (str * kind) -> known -> built -> outcome (list (str * value) * known * built)) (d : json) (kn : known) (b : built) : outcome (nat * known * built) :=
  do t <- label (lit "$tag") d;
  match handle_for kn t with
  | Some h => Ok (h, kn, b)
  | None =>
      do ty <- label (lit "~type") d;
      if is_nil ty then Throw
      else match schema ty with
           | None => Throw
           | Some fs =>
               do ms <- present d fs;
               do (r, b') <- build ms kn b;
               let '(ml, kn') := r in
               Ok (length b', (t, length b') :: kn', b' ++ [Object ty ml])
           end
  end.
Fixpoint read_members (fuel : nat) (d : json) : list (str * kind) -> known -> built -> outcome (list (str * value) * known * built) :=
  fix each (l : list (str * kind)) (kn : known) (b : built) :=
    match l with
    | [] => Ok ([], kn, b)
    | (n, Ref) :: r =>
        do v <- member d n;
        do (q, b1) <- extract (match fuel with O => fun _ _ _ => OutOfFuel | S f => read_members f v end) v kn b;
        let '(h, kn1) := q in
        do (q2, b2) <- each r kn1 b1;
        let '(ml, kn2) := q2 in
        Ok ((n, VRef h) :: ml, kn2, b2)
    | (n, k) :: r =>
        do v <- member d n;
        do m <- read_value k v;
        do (q2, b2) <- each r kn b;
        let '(ml, kn2) := q2 in
        Ok ((n, m) :: ml, kn2, b2)
    end.
(** json.cpp:311-318 ReadString, :320-331 ReadFile: a text that is not a document leaves it null, and the first question asserts *)
Definition read_string (fuel : nat) (s : str) : outcome (nat * built) :=
  let d := match parse s with Some d => d | None => JNull end in
  do (q, b) <- extract (read_members fuel d) d [] [];
  let '(h, _) := q in Ok (h, b).
End Json.
Arguments ANum {N T}. Arguments AInt {N T}. Arguments ABool {N T}. Arguments AStr {N T}. Arguments ADate {N T}. Arguments ATime {N T}. Arguments ACell {N T}.
Arguments akind_of {N T}. Arguments VOne {N T}. Arguments VVec {N T}. Arguments VMat {N T}. Arguments VRef {N T}. Arguments kind_of {N T}.
Arguments Object {N T}. Arguments otype {N T}. Arguments members {N T}. Arguments cell_text {N T}. Arguments atom_text {N T}. Arguments single_text {N T}.
Arguments vector_text {N T}. Arguments matrix_text {N T}. Arguments member_text {N T}. Arguments write_members {N T}. Arguments write_string {N T}.
Arguments e_double {N}. Arguments e_time {N T}. Arguments e_cell {N T}. Arguments read_atom {N T}. Arguments read_atoms {N T}. Arguments as_vector {N T}.
Arguments cut_rows {N T}. Arguments as_matrix {N T}. Arguments read_value {N T}. Arguments extract {N T}. Arguments read_members {N T}. Arguments read_string {N T}.
