(** Model of the traded rates, the period lengths and the interest-rate indices: dal/protocol/couponrate.*, clearer.hpp,
    collateraltype.hpp, dal/time/periodlength.* and dal/indice/index/ir.*. *)
From Coq Require Import String Ascii ZArith List Bool.
From Verif Require Import Base StringModel DateModel HolidayModel ScheduleModel IndexModel SetupModel.
Import ListNotations.
Local Open Scope Z_scope.

(** * Enumerations *)
(** A value made by the default constructor (_NOT_SET) is left out of each enumeration below. *)
(** time/periodlength.hpp, auto/MG_PeriodLength_enum.inc:20-35 and 41-80. *)
Inductive period := ANNUAL | SEMIANNUAL | QUARTERLY | MONTHLY.
Definition period_string (p : period) : str :=
  lit match p with ANNUAL => "ANNUAL" | SEMIANNUAL => "SEMIANNUAL" | QUARTERLY => "QUARTERLY" | MONTHLY => "MONTHLY" end.
Definition period_names : list (string * period) :=
  [("ANNUAL", ANNUAL); ("12M", ANNUAL); ("SEMIANNUAL", SEMIANNUAL); ("SEMI", SEMIANNUAL); ("6M", SEMIANNUAL);
   ("QUARTERLY", QUARTERLY); ("3M", QUARTERLY); ("MONTHLY", MONTHLY); ("1M", MONTHLY)]%string.
Definition read_period (s : str) : outcome period := match s with [] => Throw | _ => read_enum period_names s end.
(** protocol/clearer.hpp:11-18, auto/MG_Clearer_enum.inc:18-29 and 35-58. *)
Inductive clearer := CME | LCH.
Definition clearer_string (c : clearer) : str := lit match c with CME => "CME" | LCH => "LCH" end.
Definition clearer_names : list (string * clearer) := [("CME", CME); ("LCH", LCH)]%string.
Definition read_clearer (s : str) : outcome clearer := match s with [] => Throw | _ => read_enum clearer_names s end.
(** protocol/couponrate.hpp, auto/MG_TradedRate_enum.inc:21-38 and 44-76. *)
Inductive rate := LIBOR_3M_CME | LIBOR_3M_LCH | LIBOR_3M_FUT | LIBOR_6M_CME | LIBOR_6M_LCH.
Definition rate_string (r : rate) : str :=
  lit match r with
      | LIBOR_3M_CME => "LIBOR_3M_CME" | LIBOR_3M_LCH => "LIBOR_3M_LCH" | LIBOR_3M_FUT => "LIBOR_3M_FUT"
      | LIBOR_6M_CME => "LIBOR_6M_CME" | LIBOR_6M_LCH => "LIBOR_6M_LCH"
      end.
Definition rate_names : list (string * rate) :=
  [("LIBOR3MCME", LIBOR_3M_CME); ("LIBOR3MLCH", LIBOR_3M_LCH); ("LIBOR3MFUT", LIBOR_3M_FUT);
   ("LIBOR6MCME", LIBOR_6M_CME); ("LIBOR6MLCH", LIBOR_6M_LCH)]%string.
Definition read_rate (s : str) : outcome rate := match s with [] => Throw | _ => read_enum rate_names s end.
(** protocol/collateraltype.hpp:10-19, without its text form. *)
Inductive collateral := OIS | GC | NONE.

(** * Traded rates *)
(** couponrate.cpp:15-29: the two period lengths are read from the texts "3M" and "6M". *)
Definition rate_period (r : rate) : outcome period :=
  match r with
  | LIBOR_3M_CME | LIBOR_3M_LCH | LIBOR_3M_FUT => read_period (lit "3M")
  | LIBOR_6M_CME | LIBOR_6M_LCH => read_period (lit "6M")
  end.
(** couponrate.cpp:34-46. *)
Definition rate_clearer (r : rate) : clearer :=
  match r with
  | LIBOR_3M_CME | LIBOR_3M_FUT | LIBOR_6M_CME => CME
  | LIBOR_3M_LCH | LIBOR_6M_LCH => LCH
  end.
(** periodlength.cpp:14-27. *)
Definition months (p : period) : Z := match p with ANNUAL => 12 | SEMIANNUAL => 6 | QUARTERLY => 3 | MONTHLY => 1 end.
(** couponrate.cpp:48-71. *)
Definition find_rate (p : period) (c : clearer) : outcome rate :=
  match c with
  | LCH => if months p =? 3 then Ok LIBOR_3M_LCH else if months p =? 6 then Ok LIBOR_6M_LCH else Throw
  | CME => if months p =? 3 then Ok LIBOR_3M_CME else if months p =? 6 then Ok LIBOR_6M_CME else Throw
  end.

(** * Nominal maturity *)
(** periodlength.cpp:32-33: the loop; at most [fuel] rounds (a month and a period length make at most 24). *)
Fixpoint carry (fuel : nat) (yy mm : Z) : outcome (Z * Z) :=
  if mm <=? 12 then Ok (yy, mm) else match fuel with O => OutOfFuel | S k => carry k (yy + 1) (mm - 12) end.
(** periodlength.cpp:29-36: the currency is not used. *)
Definition nominal_maturity (start : Z) (p : period) (c : ccy) : outcome Z :=
  do ym <- carry 2 (year start) (month start + months p);
  let '(yy, mm) := ym in
  Ok (mk_date yy mm (Z.min (day start) (days_in_month yy mm))).

(** * Interest-rate indices *)
(** A start or a maturity is a cell. [OTime] is a date with a time, whose time plays no part; [OOther] is a truth value or a number that
    is not whole. A number must fit an int (AsInt is undefined otherwise, C62). *)
Inductive offset := ONothing | ODays (n : Z) | OOther | ODate (d : Z) | OTime (d : Z) | OText (s : str).
(** cell.hpp:70-74 *)
Definition off_empty (o : offset) : bool := match o with ONothing | OText [] => true | _ => false end.
(** ir.cpp:14-27 *)
Definition date_from (w : world) (combos : list (str * center)) (o : offset) (fix_date : Z) : outcome Z :=
  if off_empty o then Ok fix_date
  else match o with
       | ODays n => Ok (add_days fix_date n)
       | ODate d => Ok d
       | OTime d => Ok d
       | OText s => do i <- parse_increment (w_reg w) combos s; apply_inc i true fix_date
       | _ => Throw
       end.
(** ir.cpp:29-39 *)
Definition mat_postfix (o : offset) : outcome str :=
  match o with OText s => Ok s | ODate d => Ok (lit (to_string d)) | _ => Throw end.
(** ir.cpp:41-46 *)
Definition start_postfix (o : offset) : outcome str :=
  if off_empty o then Ok [] else do t <- mat_postfix o; Ok (lit "," ++ t).

(** ir.hpp:25-61 *)
Inductive ir_index :=
| Libor (c : ccy) (tenor : rate) (start : offset)
| Swap (c : ccy) (tenor : str) (start : offset)
| Df (c : ccy) (maturity : offset) (start : offset) (coll : option collateral).
(** ir.hpp:52-56: the collateral given to the constructor is not stored, collateral_ is made by its default constructor. *)
Definition new_df (c : ccy) (maturity : offset) (start : option offset) (coll : option collateral) : ir_index :=
  Df c maturity (match start with Some s => s | None => ONothing end) None.
(** ir.cpp:57-68 *)
Definition ir_name (i : ir_index) : outcome str :=
  match i with
  | Libor c r s => do p <- start_postfix s; Ok (lit "IR:" ++ ccy_string c ++ lit "," ++ rate_string r ++ p)
  | Swap c t s => do p <- start_postfix s; Ok (lit "IR:" ++ ccy_string c ++ lit "," ++ t ++ p)
  | Df c m s _ => do p <- start_postfix s; do q <- mat_postfix m; Ok (lit "IR[DF]:" ++ ccy_string c ++ p ++ lit "," ++ q)
  end.
(** ir.cpp:50-55 and 70-72; the fixing time enters by its date only. *)
Definition ir_start (w : world) (combos : list (str * center)) (i : ir_index) (fix_date : Z) : outcome Z :=
  match i with
  | Libor c _ s | Swap c _ s =>
    do temp <- date_from w combos s fix_date;
    match s with ODate _ => Ok temp | _ => libor_start w c temp end
  | Df _ _ s _ => date_from w combos s fix_date
  end.
(** ir.cpp:74-76 *)
Definition df_maturity (w : world) (combos : list (str * center)) (i : ir_index) (fix_date : Z) : outcome Z :=
  match i with Df _ m _ _ => date_from w combos m fix_date | _ => Throw end.
