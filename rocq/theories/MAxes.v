(** Model of attitude/error/axes.py, the normal-error helpers of
    attitude/error/__init__.py and the error accessors of
    attitude/orientation/pca.py. *)
From Coq Require Import Reals Lra List ZArith.
From Verif Require Import RVec Trig MPca.
Import ListNotations.
Open Scope R_scope.

(** Quantile functions of scipy.stats: arbitrary functions, [None] = NaN
    (for example non-positive degrees of freedom). *)
Record stats : Type := mkStats {
  f_ppf : R -> R -> R -> option R;      (* f.ppf(confidence, d1, d2) *)
  chi2_ppf : R -> R -> option R }.      (* chi2.ppf(confidence, d) *)

(** numpy.sqrt: NaN for negative arguments *)
Definition fsqrt (x : R) : option R := if Rlt_dec x 0 then None else Some (sqrt x).
Definition vsqrt (v : vec3) : option vec3 :=
  match fsqrt (vx v), fsqrt (vy v), fsqrt (vz v) with
  | Some a, Some b, Some c => Some (V3 a b c)
  | _, _, _ => None
  end.

Definition obind {A B} (o : option A) (f : A -> option B) : option B :=
  match o with Some a => f a | None => None end.

(** [fit.n] as a float *)
Definition n_of (f : pca) : R := INR (p_n f).

(** axes.py:24-29 *)
Definition sampling_covariance (f : pca) : option vec3 :=
  obind (eigenvalues f) (fun ev =>
  obind (fdiv 2 (n_of f - 1)) (fun k =>
  Some (vscale k (vmul ev ev)))).

(** axes.py:31-40 *)
Definition noise_covariance (f : pca) (dof : R) : option vec3 :=
  obind (eigenvalues f) (fun ev =>
  obind (fdiv (vz ev) (n_of f - dof)) (fun measurement_noise =>
  Some (vscale measurement_noise (vscale 4 ev)))).

(** axes.py:42-53 *)
Definition vabs (v : vec3) : vec3 := V3 (Rabs (vx v)) (Rabs (vy v)) (Rabs (vz v)).
Definition apply_error_scaling (nominal errors : vec3) (n : R) (variance_on_all_axes : bool)
  : option vec3 :=
  obind (if variance_on_all_axes then Some (vz nominal) else fdiv (vz nominal) (n - 1)) (fun z0 =>
  let nominal := V3 (vx nominal) (vy nominal) (z0 * -1) in
  Some (vabs (vsub nominal errors))).

(** axes.py:102-106 *)
Definition fisher_statistic (st : stats) (n conf dof : R) : option R := f_ppf st conf dof (n - dof).

Inductive method : Set := MSampling | MNoise.

(** Keyword arguments of statistical_axes *)
Record kwargs : Type := mkKw {
  k_method : method;
  k_confidence : R;
  k_dof : R;
  k_chisq : bool;
  k_all_axes : bool }.

(** axes.py:108-146.  [dof] is popped from the keyword arguments before they are
    forwarded (line 123), so noise_covariance always runs with its default. *)
Definition statistical_axes (st : stats) (kw : kwargs) (f : pca) : option vec3 :=
  obind (eigenvalues f) (fun nominal =>
  obind (match k_method kw with
         | MSampling => sampling_covariance f
         | MNoise => noise_covariance f 2
         end) (fun cov =>
  obind (if k_chisq kw then chi2_ppf st (k_confidence kw) (k_dof kw)
         else fisher_statistic st (n_of f) (k_confidence kw) (k_dof kw)) (fun z =>
  obind (vsqrt cov) (fun r =>
  apply_error_scaling nominal (vscale z r) (n_of f) (k_all_axes kw))))).

(** default keyword arguments *)
Definition default_kw : kwargs := mkKw MNoise (95/100) 2 false true.
(** axes.py:148-165 *)
Definition noise_axes (st : stats) (f : pca) : option vec3 := statistical_axes st default_kw f.
Definition sampling_axes (st : stats) (f : pca) : option vec3 :=
  statistical_axes st (mkKw MSampling (95/100) 2 false true) f.

(** axes.py:167-179 *)
Definition francq_axes (st : stats) (conf : R) (f : pca) : option vec3 :=
  obind (eigenvalues f) (fun e =>
  obind (fisher_statistic st (n_of f) conf 2) (fun F =>
  obind (fdiv (2 * F) (n_of f - 2)) (fun factor =>
  obind (fsqrt factor) (fun r =>
  apply_error_scaling e (vscale r e) (n_of f) true)))).

(** axes.py:181-188 *)
Definition babamoradi_axes (st : stats) (conf : R) (f : pca) : option vec3 :=
  obind (eigenvalues f) (fun e =>
  obind (fisher_statistic st (n_of f) conf 2) (fun F =>
  obind (fdiv (2 * F) (n_of f - 2)) (fun val =>
  obind (fdiv (n_of f * n_of f - 1) (n_of f)) (fun k =>
  obind (vsqrt (V3 (vx e * val * k) (vy e * val * k) (vz e * val * k))) (fun H =>
  Some (vmul H H)))))).

(** axes.py:59-77 (radians) *)
Definition axis_angular_error (hyp : vec3) (axis_length : R) : R := atan2 (vz hyp) axis_length.
Definition angular_errors (hyp : vec3) : option (R * R) :=
  obind (vsqrt hyp) (fun ax => Some (atan2 (vz ax) (vx ax), atan2 (vz ax) (vy ax))).

(** pca.py:284-307: self.method is noise_axes *)
Definition hyperbolic_axes (st : stats) (f : pca) : option vec3 := noise_axes st f.
Definition angular_error (st : stats) (f : pca) (axis_length : R) : option R :=
  obind (hyperbolic_axes st f) (fun h => Some (axis_angular_error h axis_length)).
Definition fit_angular_errors (st : stats) (f : pca) : option (R * R) :=
  obind (hyperbolic_axes st f) (fun h =>
  obind (angular_errors h) (fun '(a, b) => Some (degrees a, degrees b))).

(** error/__init__.py:37-50; a zero component gives a non-finite value *)
Definition to_normal_errors (axes : vec3) : option vec3 :=
  if has_zero axes then None
  else Some (V3 (1 / vx axes * (vz axes * vz axes)) (1 / vy axes * (vz axes * vz axes))
                (1 / vz axes * (vz axes * vz axes))).
Definition from_normal_errors (ax1 : vec3) : option vec3 :=
  if has_zero ax1 then None
  else Some (V3 (vz ax1 * vz ax1 / vx ax1) (vz ax1 * vz ax1 / vy ax1) (vz ax1 * vz ax1 / vz ax1)).
