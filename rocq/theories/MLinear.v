(** Model of attitude/orientation/linear (regression fits) and of the parts of
    attitude/orientation/base.py it uses. *)
From Coq Require Import Reals Lra Lia List Arith Bool.
From Verif Require Import RVec Trig LNum MConics MAxes.
Import ListNotations.
Open Scope R_scope.

(** coordinates/__init__.py:19-28 for a two-dimensional array with r rows *)
Definition centered_nd (r : nat) (A : matn) : matn := fun i j => A i j - sumn r (fun k => A k j) / INR r.

(** g_n observations, g_k coefficients, design matrix, right-hand side *)
Record regression := mkReg { g_n : nat; g_k : nat; g_C : matn; g_Z : vecn }.

(** linear/regression.py:9-13 (add_ones) and 20-38 for an r x c array: rows are swapped
    with columns when there are more than three columns, after centring.  An empty array
    has no row 0, an array without columns no last column. *)
Definition Regression (r c : nat) (A : matn) : res regression :=
  if (r =? 0)%nat then Raise IndexError else
  let A := centered_nd r A in
  let '(r, c, A) := if (3 <? c)%nat then (c, r, trn A) else (r, c, A) in
  if (c =? 0)%nat then Raise IndexError else
  let k := Nat.min 2 c in
  Ok {| g_n := r; g_k := S k; g_C := fun i j => if (j <? k)%nat then A i j else 1; g_Z := fun i => A i (c - 1)%nat |}.

(** regression.py:15-17 *)
Definition matrix_squared (n : nat) (C : matn) : matn := mulm n (trn C) C.
(** regression.py:44: the inverse kept in self.xTx *)
Definition xTx (inv : inv_fn) (g : regression) : res matn :=
  match inv (g_k g) (matrix_squared (g_n g) (g_C g)) with Some B => Ok B | None => Raise LinAlgError end.
(** regression.py:40-47 *)
Definition coefs (inv : inv_fn) (g : regression) : res vecn :=
  rbind (xTx inv g) (fun B => Ok (mulv (g_k g) B (mulv (g_n g) (trn (g_C g)) (g_Z g)))).
(** regression.py:49-55 *)
Definition reg_residuals (inv : inv_fn) (g : regression) : res vecn :=
  rbind (coefs inv g) (fun m => Ok (fun i => g_Z g i - mulv (g_k g) (g_C g) m i)).
(** regression.py:57-69; with as many points as coefficients nothing is solved *)
Definition covariance (inv : inv_fn) (g : regression) : res matn :=
  if (g_n g =? g_k g)%nat then Ok (fun _ _ => 0) else
  rbind (reg_residuals inv g) (fun e =>
  rbind (xTx inv g) (fun B => Ok (fun i j => dotn (g_n g) e e * B i j))).
(** regression.py:71-73; [None]: a negative variance *)
Definition diag_sqrt (A : matn) (i : nat) : option R := fsqrt (A i i).
Definition reg_standard_errors (inv : inv_fn) (g : regression) : res (list (option R)) :=
  rbind (covariance inv g) (fun V => Ok (map (diag_sqrt V) (seq 0 (g_k g)))).

(** base.py:10-14 *)
Definition rotation (a : R) : mat3 := M3 (V3 (cos a) (- sin a) 0) (V3 (sin a) (cos a) 0) (V3 0 0 1).

Definition mat3_of (A : matn) : mat3 :=
  M3 (V3 (A 0 0) (A 0 1) (A 0 2))%nat (V3 (A 1 0) (A 1 1) (A 1 2))%nat (V3 (A 2 0) (A 2 1) (A 2 2))%nat.

Record linear := mkLinear { l_azimuth : R; l_coef : vec3; l_slope : R; l_cov : mat3 }.
(** linear/__init__.py:15-25.  A single column gives two coefficients, which the 3 x 3
    rotation cannot multiply. *)
Definition LinearOrientation (inv : inv_fn) (r c : nat) (A : matn) : res linear :=
  rbind (Regression r c A) (fun g =>
  rbind (coefs inv g) (fun v =>
  let az := - atan2 (- v 1%nat) (- v 0%nat) in
  if negb (g_k g =? 3)%nat then Raise ValueError else
  let co := mv (rotation az) (V3 (v 0%nat) (v 1%nat) (v 2%nat)) in
  rbind (covariance inv g) (fun V =>
  Ok {| l_azimuth := az; l_coef := co; l_slope := atan (- vx co); l_cov := mat3_of V |}))).
(** linear/__init__.py:27-31 without uncertainties *)
Definition l_strike_dip (f : linear) : R * R := (degrees (l_azimuth f), degrees (l_slope f)).
(** base.py:51-54 *)
Definition l_rotated_covariance (f : linear) : mat3 :=
  let r := rotation (l_azimuth f) in mm (mm (mT r) (l_cov f)) r.
(** base.py:48-49 and 56-57 *)
Definition l_errors (f : linear) : option (R * R) :=
  let V := l_rotated_covariance f in
  match fsqrt (vx (r0 V)), fsqrt (vy (r1 V)), fsqrt (vz (r2 V)) with
  | Some a, Some b, Some _ => Some (degrees a, degrees b)
  | _, _, _ => None
  end.
(** an n x 3 array from its rows *)
Definition array_of (pts : list vec3) : matn := fun i j =>
  let p := nth i pts vzero in match j with O => vx p | 1%nat => vy p | _ => vz p end.
