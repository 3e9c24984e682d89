(** Model of dal/time/dateincrement.cpp (increments and their text form) and dal/time/schedules.cpp. *)
From Coq Require Import String Ascii ZArith List Bool.
From Verif Require Import Base DateModel StringModel HolidayModel.
Import ListNotations.
Open Scope Z_scope.

(** dateincrement.cpp:18-28 SpecialDay *)
Inductive special := IMM | IMM1 | CDS | EOM.
(** dateincrement.cpp:87-100 SpecialDay_::Step *)
Definition special_step (s : special) (from : Z) (forward : bool) : outcome Z :=
  match s with
  | CDS => to_cds from forward
  | IMM => to_imm from forward 3
  | IMM1 => to_imm from forward 1
  | EOM => Ok (to_eom from forward)
  end.
(** dateincrement.cpp:102-109 IncrementNextSpecial_, :144-155 IncrementMultistep_, :157-169 IncrementCompound_ (the
    parts are applied in the order listed, forward and backward alike) *)
Inductive increment :=
| Multi (n : Z) (sz : step_size) (h : holidays)
| Special (s : special)
| Compound (l : list increment).
Fixpoint apply_inc (i : increment) (forward : bool) (d : Z) : outcome Z :=
  match i with
  | Multi n sz h => step sz d forward n h
  | Special s => special_step s d forward
  | Compound l => (fix go (l : list increment) (d : Z) : outcome Z :=
                     match l with [] => Ok d | x :: r => do d' <- apply_inc x forward d; go r d' end) l d
  end.

(** * schedules.cpp:19-47 DateGenerate *)
(** The loop from the anchor: [next] is FwdFrom or BackFrom, [past] the stopping test.  [ret_val] is held newest
    first; each turn uses one unit of fuel. *)
Fixpoint generate_loop (fuel : nat) (next : Z -> outcome Z) (past : Z -> bool) (last : Z) (acc : list Z) : outcome (list Z) :=
  match fuel with
  | O => OutOfFuel
  | S f => do pin <- next last; if past pin then Ok acc else generate_loop f next past pin (pin :: acc)
  end.
(** the final stub: if (end != ret_val.back()) push_back(end) *)
Definition close_with (e : Z) (acc : list Z) : list Z :=
  match acc with [] => [e] | x :: _ => if x =? e then acc else e :: acc end.
Inductive generation := Forward | Backward.
Definition date_generate (fuel : nat) (start maturity : Z) (tenor : bool -> Z -> outcome Z) (g : generation) : outcome (list Z) :=
  match g with
  | Forward => do acc <- generate_loop fuel (tenor true) (fun p => maturity <? p) start [start];
               Ok (rev (close_with maturity acc))
  | Backward => do acc <- generate_loop fuel (tenor false) (fun p => p <? start) maturity [maturity];
                Ok (close_with start acc)
  end.

(** schedules.hpp:21-33 BizDayConvention *)
Inductive convention := Unadjusted | Following | ModifiedFollowing.
(** schedules.cpp:49-68 MakeSchedule for a date maturity *)
Definition adjust (c : convention) (h : holidays) (d : Z) : outcome Z :=
  match c with Following => next_bus h d | Unadjusted => Ok d | ModifiedFollowing => Throw end.
Definition make_schedule (fuel : nat) (start maturity : Z) (h : holidays) (tenor : bool -> Z -> outcome Z)
    (g : generation) (c : convention) : outcome (list Z) :=
  do pins <- date_generate fuel start maturity tenor g;
  do ds <- map_outcome (adjust c h) pins;
  Ok (uniqueZ ds).

(** * Text form of increments *)
Fixpoint read_enum {A} (table : list (string * A)) (s : str) : outcome A :=
  match table with
  | [] => Throw
  | (n, v) :: r => do e <- equivalent s (lit n); if e then Ok v else read_enum r s
  end.
(** dal/auto/MG_DateStepSize_enum.inc:40-96; an empty text is not recognised *)
Definition step_size_names : list (string * step_size) :=
  [("Y", SY); ("YEAR", SY); ("YEARS", SY); ("M", SM); ("MONTH", SM); ("MONTHS", SM); ("W", SW); ("WEEK", SW); ("WEEKS", SW);
   ("BD", SBD); ("BUSDAY", SBD); ("BUSINESSDAY", SBD); ("CD", SCD); ("CALDAY", SCD); ("CALENDARDAY", SCD)]%string.
Definition read_step_size (s : str) : outcome step_size := match s with [] => Throw | _ => read_enum step_size_names s end.
(** dal/auto/MG_SpecialDay_enum.inc:37-80 *)
Definition special_names : list (string * special) :=
  [("IMM", IMM); ("IMM3", IMM); ("IMMQUARTERLY", IMM); ("IMM1", IMM1); ("IMMMONTHLY", IMM1); ("CDS", CDS); ("CDS3", CDS);
   ("CDSQUARTERLY", CDS); ("EOM", EOM)]%string.
Definition read_special (s : str) : outcome special := match s with [] => Throw | _ => read_enum special_names s end.
(** the decimal value of the leading digits (String::ToInt on a digit string: std::stoi throws out of range) *)
Definition is_dig (c : ascii) : bool := (48 <=? code c) && (code c <=? 57).
Fixpoint span_dig (s : str) : str * str :=
  match s with
  | [] => ([], [])
  | c :: r => if is_dig c then let '(a, b) := span_dig r in (c :: a, b) else ([], s)
  end.
Fixpoint dec_val (acc : Z) (s : str) : Z := match s with [] => acc | c :: r => dec_val (10 * acc + (code c - 48)) r end.
Definition to_int (s : str) : outcome Z :=
  match s with
  | [] => Throw
  | _ => let v := dec_val 0 s in if v <=? 2147483647 then Ok v else Throw
  end.
Section Parse.
  (** the registry and cache the calendar names are resolved in *)
  Variable reg : hdata.
  Variable combos : list (str * center).
  (** dateincrement.cpp:194-206, a single increment *)
  Definition parse_single (src : str) : outcome increment :=
    match src with
    | [] => Throw
    | _ =>
        match span_dig src with
        | ([], _) => do s <- read_special src; Ok (Special s)
        | (num, rest) =>
            let '(unit, hols) := cut ";"%char rest in
            do h <- match hols with None => Ok hols_none | Some t => mk_holidays reg combos t end;
            do n <- to_int num;
            match rest with
            | [] => Throw (* substr(npos, ...) *)
            | _ => do sz <- read_step_size unit; Ok (Multi n sz h)
            end
        end
    end.
  (** dateincrement.cpp:184-207 ParseIncrement; the pieces of a compound contain no '&' *)
  Definition parse_increment (src : str) : outcome increment :=
    if existsb (Ascii.eqb "&"%char) src
    then do l <- map_outcome parse_single (split src "&"%char false); Ok (Compound l)
    else parse_single src.
End Parse.
(** dateincrement.cpp:209-211 *)
Definition is_libor_tenor (t : str) : bool := negb (existsb (fun c => ceq c "y"%char || ceq c "Y"%char) t).
Definition is_swap_tenor (t : str) : bool := negb (is_libor_tenor t).
