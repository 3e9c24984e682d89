(** Model of the timeline part of dal/script/event.cpp (ScriptProduct_::ParseEvents) and of dal/script/event/schedule.cpp. *)
From Coq Require Import String Ascii ZArith List Bool.
From Verif Require Import Base DateModel StringModel HolidayModel ScheduleModel OMap.
Import ListNotations.
Open Scope Z_scope.

(** * Text substitution *)
(** whether the text begins with the name, up to letter case *)
Fixpoint starts (name text : str) : bool :=
  match name, text with
  | [], _ => true
  | _ :: _, [] => false
  | c :: n, d :: t => ceq c d && starts n t
  end.
(** std::regex_replace with the flag icase, for a pattern that is a plain word and a replacement without '$': occurrences
    from left to right, not overlapping.  [skip] characters of the occurrence just replaced are still to be dropped. *)
Fixpoint replace_go (name value : str) (skip : nat) (text : str) : str :=
  match text with
  | [] => []
  | c :: r =>
      match skip with
      | S k => replace_go name value k r
      | O => if starts name text then value ++ replace_go name value (length name - 1) r else c :: replace_go name value 0 r
      end
  end.
Definition replace_all (name value text : str) : str := replace_go name value 0 text.
(** letters, digits and '_' (ASCII), not empty *)
Definition word_char (c : ascii) : bool :=
  ((65 <=? code c) && (code c <=? 90)) || ((97 <=? code c) && (code c <=? 122)) || ((48 <=? code c) && (code c <=? 57)) || (code c =? 95).
Definition plain_name (n : str) : bool := match n with [] => false | _ => forallb word_char n end.
Definition plain_value (v : str) : bool := forallb (fun c => negb (code c =? 36)) v.

(** * event/schedule.cpp:16-77 ParseSchedule *)
Definition convention_names : list (string * convention) :=
  [("UNADJUSTED", Unadjusted); ("FOLLOWING", Following); ("MODIFIEDFOLLOWING", ModifiedFollowing)]%string.
Definition read_convention (s : str) : outcome convention := match s with [] => Throw | _ => read_enum convention_names s end.
Record sched := Sched { s_start : Z; s_end : Z; s_tenor : option increment; s_hols : holidays; s_rule : convention; s_at_end : bool }.
Section Product.
  (** the calendar registry and its cache *)
  Variable reg : hdata.
  Variable combos : list (str * center).
  (** Date::FromString of the five tokens joined *)
  Definition five_tokens (l : list str) : outcome (Z * list str) :=
    match l with
    | a :: b :: c :: d :: e :: r => do x <- from_string (string_of_list_ascii (a ++ b ++ c ++ d ++ e)); Ok (x, r)
    | _ => UB (* iterators past the end *)
    end.
  (** schedule.cpp:27-60: [l] is tokens[i..]; the condition i < tokens.size() - 2 says that more than two are left.
      The branch FIXING does not advance over its value. *)
  Fixpoint sched_loop (fuel : nat) (l : list str) (s : sched) : outcome sched :=
    match fuel with
    | O => OutOfFuel
    | S f =>
        match l with
        | name :: colon :: value :: rest =>
            if negb (ci_eqb colon (lit ":")) then Throw
            else if ci_eqb name (lit "START") then
              do p <- five_tokens (value :: rest); sched_loop f (snd p) (Sched (fst p) (s_end s) (s_tenor s) (s_hols s) (s_rule s) (s_at_end s))
            else if ci_eqb name (lit "END") then
              do p <- five_tokens (value :: rest); sched_loop f (snd p) (Sched (s_start s) (fst p) (s_tenor s) (s_hols s) (s_rule s) (s_at_end s))
            else if ci_eqb name (lit "FREQ") then
              do i <- parse_increment reg combos value; sched_loop f rest (Sched (s_start s) (s_end s) (Some i) (s_hols s) (s_rule s) (s_at_end s))
            else if ci_eqb name (lit "CALENDAR") then
              do h <- mk_holidays reg combos value; sched_loop f rest (Sched (s_start s) (s_end s) (s_tenor s) h (s_rule s) (s_at_end s))
            else if ci_eqb name (lit "BizRule") then
              do c <- read_convention value; sched_loop f rest (Sched (s_start s) (s_end s) (s_tenor s) (s_hols s) c (s_at_end s))
            else if ci_eqb name (lit "FIXING") then
              if ci_eqb value (lit "BEGIN") then sched_loop f (colon :: value :: rest) (Sched (s_start s) (s_end s) (s_tenor s) (s_hols s) (s_rule s) false)
              else if ci_eqb value (lit "END") then sched_loop f (colon :: value :: rest) (Sched (s_start s) (s_end s) (s_tenor s) (s_hols s) (s_rule s) true)
              else Throw
            else Throw
        | _ => Ok s
        end
    end.
  (** schedule.cpp:70-75: for k = 1 .. size - 1 *)
  Fixpoint periods (at_end : bool) (ds : list Z) : list (Z * Z * Z) :=
    match ds with
    | a :: ((b :: _) as r) => (a, b, if at_end then b else a) :: periods at_end r
    | _ => []
    end.
  (** [fuel] bounds the number of dates generated.  With fewer than two tokens the bound tokens.size() - 2 wraps around
      and the tokens are read out of range; without FREQ the tenor is a null handle. *)
  Definition parse_schedule (fuel : nat) (tokens : list str) : outcome (list (Z * Z * Z)) :=
    if (length tokens <? 2)%nat then UB else
    do s <- sched_loop (S (length tokens)) tokens (Sched 0 0 None hols_none Unadjusted true);
    match s_tenor s with
    | None => UB
    | Some i => do ds <- make_schedule fuel (s_start s) (s_end s) (s_hols s) (apply_inc i) Forward (s_rule s); Ok (periods (s_at_end s) ds)
    end.

  (** * event.cpp:14-85 ParseEvents *)
  (** A row: a date, or text ([Cell::ToString] of anything that is not a date), with the text of the event. *)
  Inductive row := Dated (d : Z) (text : str) | Named (desc text : str).
  Context {Number Prog : Type}.
  Variable tokenize : str -> list str.
  (** parser.cpp ToDouble: [Some v] when the text is a number *)
  Variable number : str -> option Number.
  Variable parse : omap str Number -> str -> outcome Prog.
  (** any other use of std::regex_replace *)
  Variable regex_replace : str -> str -> str -> outcome str.
  Variable fuel : nat.
  Variable eval_date : Z.
  Definition subst (name value text : str) : outcome str :=
    if plain_name name && plain_value value then Ok (replace_all name value text) else regex_replace name value text.
  (** event.cpp:28-32, 62-65: the macros in the order of the map *)
  Fixpoint expand (macros : omap str str) (text : str) : outcome str :=
    match macros with [] => Ok text | (n, v) :: r => do t <- subst n v text; expand r t end.
  Definition newline : ascii := "010"%char.
  (** event.cpp:46-49, 67-70 *)
  Definition add_event (m : omap Z str) (d : Z) (t : str) : omap Z str :=
    match mfind Z.compare m d with
    | Some old => massign Z.compare m d (old ++ newline :: t)
    | None => massign Z.compare m d t
    end.
  (** event.cpp:34-50; the text of a date has no '$' *)
  Fixpoint add_periods (text : str) (l : list (Z * Z * Z)) (m : omap Z str) : omap Z str :=
    match l with
    | [] => m
    | (s, e, f) :: r =>
        let t1 := replace_all (lit "PeriodBegin") (lit (to_string s)) text in
        let t2 := replace_all (lit "PeriodEnd") (lit (to_string e)) t1 in
        add_periods text r (add_event m f t2)
    end.
  Record acc := Acc { macros : omap str str; consts : omap str Number; timeline : omap Z str }.
  (** event.cpp:20-72: one row *)
  Definition add_row (a : acc) (r : row) : outcome acc :=
    match r with
    | Dated d text => do t <- expand (macros a) text; Ok (Acc (macros a) (consts a) (add_event (timeline a) d t))
    | Named desc text =>
        if existsb (Ascii.eqb ":"%char) desc then
          do ps <- parse_schedule fuel (tokenize desc);
          do t <- expand (macros a) text; Ok (Acc (macros a) (consts a) (add_periods t ps (timeline a)))
        else
          match mfind ci_compare (macros a) desc with Some _ => Throw | None =>
          match mfind ci_compare (consts a) desc with Some _ => Throw | None =>
          match timeline a with _ :: _ => Throw | [] =>
          match number text with
          | Some v => Ok (Acc (macros a) (massign ci_compare (consts a) desc v) (timeline a))
          | None => Ok (Acc (massign ci_compare (macros a) desc text) (consts a) (timeline a))
          end end end end
    end.
  Fixpoint add_rows (a : acc) (rows : list row) : outcome acc :=
    match rows with [] => Ok a | r :: rs => do a1 <- add_row a r; add_rows a1 rs end.
  (** event.cpp:74-84: (past, future), each a list of dates with their programs *)
  Fixpoint parse_all (cs : omap str Number) (m : omap Z str) : outcome (list (Z * Prog) * list (Z * Prog)) :=
    match m with
    | [] => Ok ([], [])
    | (d, t) :: r =>
        do p <- parse cs t; do (past, future) <- parse_all cs r;
        if eval_date <=? d then Ok (past, (d, p) :: future) else Ok ((d, p) :: past, future)
    end.
  Definition parse_events (rows : list row) : outcome (list (Z * Prog) * list (Z * Prog)) :=
    do a <- add_rows (Acc [] [] []) rows; parse_all (consts a) (timeline a).
End Product.
