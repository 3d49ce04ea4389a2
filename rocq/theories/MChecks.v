(** Model of attitude/orientation/test_reconstructed.py. *)
From Coq Require Import Reals List Bool.
From Verif Require Import RVec Trig MPca MAxes MRecon.
Import ListNotations.
Open Scope R_scope.

(** numpy.allclose with its default tolerances, for finite numbers *)
Definition allclose (a b : R) : bool := if Rle_dec (Rabs (a - b)) (1 / 10^8 + 1 / 10^5 * Rabs b) then true else false.
(** numpy.testing.assert_array_almost_equal with six decimals, for finite numbers *)
Definition almost (a b : R) : bool := if Rlt_dec (Rabs (b - a)) (15 / 10^7) then true else false.
Definition on_vec (p : R -> R -> bool) (u v : vec3) : bool := p (vx u) (vx v) && p (vy u) (vy v) && p (vz u) (vz v).
Definition on_mat (p : R -> R -> bool) (a b : mat3) : bool := on_vec p (r0 a) (r0 b) && on_vec p (r1 a) (r1 b) && on_vec p (r2 a) (r2 b).

(** test_reconstructed.py:9-16 for the array of the fit; a NaN is close to nothing *)
Definition test_rake_angle (svd : svd_fn) (arr : list vec3) : res unit :=
  rbind (PCAOrientation svd arr None None) (fun f =>
  match obind (p_dip_dr f) (fun d => vangle d (r0 (p_axes f))), obind (p_dip_dr f) (fun d => vangle (r0 (p_axes f)) d) with
  | Some ang, Some ang2 => if allclose ang ang2 then Ok tt else Raise AssertionError
  | _, _ => Raise AssertionError
  end).

(** test_reconstructed.py:29-46: the five comparisons.  Negating the axes in place (39-40)
    comes after the comparisons that use them, and the variances do not depend on it.
    A NaN fails a comparison with a number: a division by zero in line 44 gives one. *)
Definition checks (st : stats) (f : pca) : option (list bool) :=
  obind (strike_dip_rake f) (fun '(s, d, r) =>
  obind (fit_angular_errors st f) (fun '(a, b) =>
  obind (ReconstructedPlane s d r [a; b] 1) (fun p =>
  let '(s', d', r') := rp_strike_dip_rake p in
  let fax := if Rlt_dec (vz (r2 (p_axes f))) 0 then mneg (p_axes f) else p_axes f in
  Some [on_vec allclose (p_normal f) (rp_normal p);
        match rp_angular_errors p with [a'; b'] => allclose a a' && allclose b b' | _ => false end;
        almost s s' && almost d d' && almost r r';
        on_mat almost fax (rp_axes p);
        match covariance_noise f, rp_hyperbolic p with
        | Some c, Some [h0; h1; h2] =>
            match fdiv (vx c) (vz c), fdiv (vy c) (vz c), fdiv (vz c) (vz c) with
            | Some c0, Some c1, Some c2 => allclose c0 h0 && allclose c1 h1 && allclose c2 h2
            | _, _, _ => false
            end
        | _, _ => false
        end]))).
(** test_reconstructed.py:19-46 for the array of the fit; the rake of a horizontal plane is
    NaN, and so are the axes made from it *)
Definition test_reconstructed_plane (svd : svd_fn) (st : stats) (arr : list vec3) : res unit :=
  rbind (PCAOrientation svd arr None None) (fun f =>
  match checks st f with
  | Some l => if forallb (fun b => b) l then Ok tt else Raise AssertionError
  | None => Raise AssertionError
  end).
