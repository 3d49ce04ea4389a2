(** Model of attitude/display/error_comparison.py: the bands drawn, with the bootstrap. *)
From Coq Require Import Reals List Arith.
From Verif Require Import RVec LNum MConics MHyper MPca MAxes MFigures MBand.
Import ListNotations.
Open Scope R_scope.

(** half the width and half the height of the window, positions, and for each HyperbolicErrors
    its data, in the order of drawing *)
Record comparison := mkCmp { c_half_width : R; c_half_height : R; c_xvals : list R; c_bands : list bands }.

(** the calls of the loop of regressions.py:48-62 one after another: the first exception ends it *)
Fixpoint all_or_raise {A} (l : list (res A)) : res (list A) :=
  match l with [] => Ok [] | r :: t => rbind r (fun a => rbind (all_or_raise t) (fun l => Ok (a :: l))) end.

(** error_comparison.py:14-22: [xvals] is a local variable of another function *)
Definition bootstrap_func (svd : svd_fn) (arr : list vec3) : res (list R) :=
  rbind (PCAOrientation svd (centered arr) None None) (fun _ => Raise NameError).
(** error_comparison.py:11-28 up to [ci]; [noise i] is the array drawn for the i-th sample *)
Definition bootstrap_ci (svd : svd_fn) (noise : nat -> list vec3) (data : list vec3) : res (list (list R)) :=
  match np_var (map vz data) with
  | None => NonFinite
  | Some v =>
      let s := sqrt v in
      let s := if Rlt_dec s 1 then 1 else s in
      all_or_raise (bootstrap_noise noise s true data (bootstrap_func svd) (100 * 100))
  end.

(** error_comparison.py:30-80; labels, colours and the nominal line dropped.  NaN axes give
    [NonFinite]. *)
Definition error_comparison (inv : inv_fn) (st : stats) (svd : svd_fn) (noise : nat -> list vec3) (f : pca)
  (width height : option R) (do_bootstrap : bool) : res comparison :=
  let data := rotated f in
  rbind (match width with Some w => Ok (w / 2) | None => comparison_half_width data end) (fun w =>
  let v := match height with Some h => h / 2 | None => 2 * w / 25 / 2 end in
  let xvals := linspace (- w) w 401 in
  let errors hyp := match hyp with
    | Some h => hyperbolic_errors inv [vx h; vy h; vz h] xvals None (Some [[0; 1; 0]; [0; 0; 1]]) None false
    | None => NonFinite
    end in
  rbind (errors (Some (p_s f))) (fun variance =>
  rbind (errors (sampling_axes st f)) (fun sampling =>
  rbind (errors (noise_axes st f)) (fun noise_based =>
  rbind (if do_bootstrap then bootstrap_ci svd noise data else Ok []) (fun _ =>
  Ok (mkCmp w v xvals [variance; sampling; noise_based])))))).
