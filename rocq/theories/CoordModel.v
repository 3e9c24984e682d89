(** Model of the coordinate maps: dal/math/pde/pde.cpp and pde.hpp:12-20, over the real numbers. *)
From Coq Require Import Reals Bool.
From Verif Require Import Base BrentModel BlackModel.
Local Open Scope R_scope.

(** pde.cpp:12-31 IdentityMap_, SinhMap_ *)
Inductive coord_map := IdentityMap | SinhMap (lambda : R).
(** pde.cpp:13-17, 25-29: the value, and what is left in the two optional results *)
Definition x_of (m : coord_map) (y : R) : R := match m with IdentityMap => y | SinhMap l => l * sinh (y / l) end.
Definition dx_dy (m : coord_map) (y : R) : R := match m with IdentityMap => 1 | SinhMap l => cosh (y / l) end.
Definition d2x_dy2 (m : coord_map) (y : R) : R := match m with IdentityMap => 0 | SinhMap l => sinh (y / l) / l end.
(** pde.cpp:18, 30 *)
Definition y_of (m : coord_map) (x : R) : R := match m with IdentityMap => x | SinhMap l => l * arcsinh (x / l) end.
(** pde.cpp:34-38; platform.hpp:62-64, 77 *)
Definition new_sinh_map (x_width dxdy_range : R) : outcome coord_map :=
  if is_positive x_width && rleb 1 dxdy_range then
    let sinh_max := sqrt (dxdy_range * dxdy_range - 1) in
    Ok (if is_zero (sinh_max * sinh_max) then IdentityMap else SinhMap (x_width / sinh_max))
  else Throw.
(** pde.hpp:20 *)
Definition new_identity_map : outcome coord_map := new_sinh_map 1 1.
