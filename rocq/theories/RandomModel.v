(** Model of the pseudo-random generators (dal/math/random/pseudorandom.hpp and pseudorandom.cpp). *)
From Coq Require Import ZArith List Bool.
From Coq Require Import Floats.SpecFloat.
From Verif Require Import Base DateModel ScriptModel.
Import ListNotations.
Open Scope Z_scope.

(** * MRG32k32a_ *)
(** pseudorandom.cpp:89-95; m1p1 = m1 + 1 *)
Definition m1 : Z := 4294967087.
Definition m2 : Z := 4294944443.
Definition a12 : Z := 1403580.
Definition a13 : Z := 810728.
Definition a21 : Z := 527612.
Definition a23 : Z := 1370589.
Definition m1p1 : Z := 4294967088.
(** pseudorandom.cpp:98-99: the two seeds (unsigned) and six doubles *)
Record mrg := Mrg { seed_a : Z; seed_b : Z; xn : spec_float; xn1 : spec_float; xn2 : spec_float; yn : spec_float; yn1 : spec_float; yn2 : spec_float }.
(** pseudorandom.cpp:101-110 the constructor and Reset() *)
Definition mrg_new (a b : Z) : mrg := let x := fl_of_Z a in let y := fl_of_Z b in Mrg a b x x x y y y.
(** pseudorandom.cpp:115-117: [x -= long(x / m) * m; if (x < 0) x += m;] in doubles *)
Definition fmodulus (x : spec_float) (m : Z) : spec_float :=
  let r := fsub x (fmul (fl_of_Z (fl_trunc (fdiv x (fl_of_Z m)))) (fl_of_Z m)) in
  if SFltb r (fl_of_Z 0) then fadd r (fl_of_Z m) else r.
(** pseudorandom.cpp:112-135 NextUniform *)
Definition mrg_next (s : mrg) : outcome (spec_float * mrg) :=
  let x := fmodulus (fsub (fmul (fl_of_Z a12) (xn1 s)) (fmul (fl_of_Z a13) (xn2 s))) m1 in
  let y := fmodulus (fsub (fmul (fl_of_Z a21) (yn s)) (fmul (fl_of_Z a23) (yn2 s))) m2 in
  let u := if SFltb y x then fdiv (fsub x y) (fl_of_Z m1p1) else fdiv (fadd (fsub x y) (fl_of_Z m1)) (fl_of_Z m1p1) in
  Ok (u, Mrg (seed_a s) (seed_b s) x (xn s) (xn1 s) y (yn s) (yn1 s)).
(** three by three matrices and vectors of size_t *)
Definition row : Type := (Z * Z * Z)%type.
Definition mat : Type := (row * row * row)%type.
Definition w64 (z : Z) : Z := z mod 2 ^ 64.
(** pseudorandom.cpp:198-210, 224-231: the inner loop of MPrd and VPrd *)
Definition dotmod (m : Z) (a b : row) : Z :=
  let '(a0, a1, a2) := a in let '(b0, b1, b2) := b in
  let s0 := w64 (0 + w64 (a0 * b0) mod m) mod m in
  let s1 := w64 (s0 + w64 (a1 * b1) mod m) mod m in
  w64 (s1 + w64 (a2 * b2) mod m) mod m.
Definition col (k : Z) (M : mat) : row :=
  let '(r0, r1, r2) := M in
  let g (r : row) := let '(a, b, c) := r in if k =? 0 then a else if k =? 1 then b else c in (g r0, g r1, g r2).
(** pseudorandom.cpp:222-233 VPrd *)
Definition vprd (m : Z) (M : mat) (v : row) : row := let '(r0, r1, r2) := M in (dotmod m r0 v, dotmod m r1 v, dotmod m r2 v).
(** pseudorandom.cpp:192-220 MPrd *)
Definition mprd (m : Z) (A B : mat) : mat :=
  let '(r0, r1, r2) := A in
  let f (r : row) := (dotmod m r (col 0 B), dotmod m r (col 1 B), dotmod m r (col 2 B)) in (f r0, f r1, f r2).
Definition mident : mat := ((1, 0, 0), (0, 1, 0), (0, 0, 1)).
Definition ai0 : mat := ((0, a12, m1 - a13), (1, 0, 0), (0, 1, 0)).
Definition bi0 : mat := ((a21, 0, m2 - a23), (1, 0, 0), (0, 1, 0)).
(** pseudorandom.cpp:162-171 the loop over the binary digits of the number of points *)
Fixpoint power_loop (fuel : nat) (n : Z) (ab bb ai bi : mat) : outcome (mat * mat) :=
  if n <=? 0 then Ok (ab, bb) else
  match fuel with
  | O => OutOfFuel
  | S f =>
      let ab' := if Z.odd n then mprd m1 ab ai else ab in
      let bb' := if Z.odd n then mprd m2 bb bi else bb in
      power_loop f (n / 2) ab' bb' (mprd m1 ai ai) (mprd m2 bi bi)
  end.
(** pseudorandom.cpp:143-188 SkipTo *)
Definition mrg_skip (n_paths n_dim : Z) (s : mrg) : outcome mrg :=
  let n_points := w64 (n_paths * n_dim) in
  let s0 := mrg_new (seed_a s) (seed_b s) in
  let n := if Z.odd n_points then (n_points - 1) / 2 else n_points / 2 in
  do p <- power_loop 64 n mident mident ai0 bi0;
  let x := vprd m1 (fst p) (fl_trunc (xn s0), fl_trunc (xn1 s0), fl_trunc (xn2 s0)) in
  let y := vprd m2 (snd p) (fl_trunc (yn s0), fl_trunc (yn1 s0), fl_trunc (yn2 s0)) in
  let '(x0, x1, x2) := x in let '(y0, y1, y2) := y in
  Ok (Mrg (seed_a s) (seed_b s) (fl_of_Z x0) (fl_of_Z x1) (fl_of_Z x2) (fl_of_Z y0) (fl_of_Z y1) (fl_of_Z y2)).
(** unsigned from int *)
Definition w32 (z : Z) : Z := z mod 2 ^ 32.
(** pseudorandom.cpp:239-244: New(MRG32, seed): the seeds are seed and seed + 1 (an int) *)
Definition mrg_of_seed (seed : Z) : mrg := mrg_new (w32 seed) (w32 (seed + 1)).

(** * ShuffledIRN_<55, 31, 128> *)
Record irn := Irn { cells : list Z; shuffle : list Z; irl : Z }.
(** pseudorandom.cpp:50-57 IRN *)
Definition irn_step (s : irn) : outcome (Z * irn) :=
  let l := if irl s - 1 <? 0 then 54 else irl s - 1 in
  do a <- vget (cells s) l; do b <- vget (cells s) ((l + 31) mod 55);
  let v := w32 (a + b) mod 2 ^ 30 in
  do c <- vput (cells s) l v; Ok (v, Irn c (shuffle s) l).
(** 0.5 / DE_NOM *)
Definition irn_mul : spec_float := fdiv (fdiv (fl_of_Z 1) (fl_of_Z 2)) (fl_of_Z (2 ^ 30)).
(** pseudorandom.cpp:58-65 NextUniform *)
Definition irn_next (s : irn) : outcome (spec_float * irn) :=
  do p <- irn_step s; let v := fst p in let k := v mod 128 in
  do r <- vget (shuffle (snd p)) k; do sh <- vput (shuffle (snd p)) k v;
  Ok (fmul irn_mul (fl_of_Z (2 * r + 1)), Irn (cells (snd p)) sh (irl (snd p))).
(** pseudorandom.cpp:72-74: [((17 * irn_[ii - 1]) % DE_NOM) ^ MASK] *)
Fixpoint irn_cells (n : nat) (last : Z) : list Z :=
  match n with O => [] | S k => let v := Z.lxor (w32 (17 * last) mod 2 ^ 30) 523124044 in v :: irn_cells k v end.
(** pseudorandom.cpp:76-77 *)
Fixpoint irn_shuffle (n : nat) (s : irn) : outcome irn :=
  match n with
  | O => Ok s
  | S k => do p <- irn_step s; irn_shuffle k (Irn (cells (snd p)) (shuffle (snd p) ++ [fst p]) (irl (snd p)))
  end.
(** pseudorandom.cpp:67-78 the constructor *)
Definition irn_of_seed (seed : Z) : outcome irn := irn_shuffle 128 (Irn (w32 seed :: irn_cells 54 (w32 seed)) [] 0).
(** pseudorandom.cpp:86 SkipTo does nothing *)
Definition irn_skip (n_paths n_dim : Z) (s : irn) : outcome irn := Ok s.

(** * PseudoRandom_ *)
Section Pseudo.
  Context {G : Type}.
  Variable next : G -> outcome (spec_float * G).
  Variable skip : Z -> Z -> G -> outcome G.
  Variable inverse_ncdf : spec_float -> spec_float.
  (** pseudorandom.hpp:32-36 *)
  Record rng := Rng { anti : bool; cache : list spec_float; gen : G }.
  Definition rng_new (g : G) (n_dim : nat) : rng := Rng false (repeat (fl_of_Z 0) n_dim) g.
  Fixpoint draws (n : nat) (g : G) : outcome (list spec_float * G) :=
    match n with
    | O => Ok ([], g)
    | S k => do p <- next g; do r <- draws k (snd p); Ok (fst p :: fst r, snd r)
    end.
  (** pseudorandom.cpp:15-25 FillUniform on a vector of [n] elements: the cache is indexed up to [n] *)
  Definition fill_uniform (n : nat) (s : rng) : outcome (list spec_float * rng) :=
    if (length (cache s) <? n)%nat then UB else
    if anti s then Ok (map (fun c => fsub (fl_of_Z 1) c) (firstn n (cache s)), Rng false (cache s) (gen s))
    else do p <- draws n (gen s); Ok (fst p, Rng true (fst p ++ skipn n (cache s)) (snd p)).
  (** pseudorandom.cpp:27-39 FillNormal *)
  Definition fill_normal (n : nat) (s : rng) : outcome (list spec_float * rng) :=
    do p <- draws n (gen s); Ok (map inverse_ncdf (fst p), Rng (anti s) (cache s) (snd p)).
  (** SkipTo is the generator's; the antithetic flag and the cache stay *)
  Definition skip_to (n_paths : Z) (s : rng) : outcome rng :=
    do g <- skip n_paths (Z.of_nat (length (cache s))) (gen s); Ok (Rng (anti s) (cache s) g).
  Inductive op := Uniform | Normal | Skip (n : Z).
  (** any sequence of calls on vectors of the generator's dimension, with the deviates returned *)
  Fixpoint run_ops (ops : list op) (s : rng) : outcome (list (list spec_float)) :=
    match ops with
    | [] => Ok []
    | Uniform :: r => do p <- fill_uniform (length (cache s)) s; do rest <- run_ops r (snd p); Ok (fst p :: rest)
    | Normal :: r => do p <- fill_normal (length (cache s)) s; run_ops r (snd p)
    | Skip n :: r => do s1 <- skip_to n s; run_ops r s1
    end.
  (** [k] calls of FillUniform, or of FillNormal *)
  Fixpoint uniforms (k : nat) (s : rng) : outcome (list (list spec_float)) :=
    match k with O => Ok [] | S j => do p <- fill_uniform (length (cache s)) s; do rest <- uniforms j (snd p); Ok (fst p :: rest) end.
  Fixpoint normals (k : nat) (s : rng) : outcome (list (list spec_float)) :=
    match k with O => Ok [] | S j => do p <- fill_normal (length (cache s)) s; do rest <- normals j (snd p); Ok (fst p :: rest) end.
End Pseudo.
Arguments rng : clear implicits.
