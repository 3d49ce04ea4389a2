(** Model of attitude/__dustbin/statistical_distances.py. *)
From Coq Require Import Reals Lra List.
From Verif Require Import RVec MPca.
Open Scope R_scope.

(** numpy.linalg.inv *)
Definition inv_fn := mat3 -> res mat3.

Definition all_positive (v : vec3) : bool :=
  if Rlt_dec 0 (vx v) then if Rlt_dec 0 (vy v) then if Rlt_dec 0 (vz v) then true else false else false else false.
(** [.sum(axis=1)] *)
Definition row_sums (m : mat3) : vec3 :=
  V3 (vx (r0 m) + vy (r0 m) + vz (r0 m)) (vx (r1 m) + vy (r1 m) + vz (r1 m)) (vx (r2 m) + vy (r2 m) + vz (r2 m)).
Definition assert_ (b : bool) {A} (k : res A) : res A := if b then k else Raise AssertionError.
(** numpy.log: not finite for arguments that are not positive *)
Definition np_log (x : R) : res R := if Rlt_dec 0 x then Ok (ln x) else NonFinite.
Definition half_sum (a b : mat3) : mat3 :=
  let h u v := vscale (/ 2) (vadd u v) in M3 (h (r0 a) (r0 b)) (h (r1 a) (r1 b)) (h (r2 a) (r2 b)).

(** statistical_distances.py:13-32; [covariance_matrix] is diagonal (pca.py:309-326) *)
Definition bhattacharyya_distance (inv : inv_fn) (pca1 pca2 : pca) : res R :=
  match covariance_noise pca1, covariance_noise pca2 with
  | Some d1, Some d2 =>
      let u1 := coefficients pca1 in let s1 := mdiag d1 in
      let u2 := coefficients pca2 in let s2 := mdiag d2 in
      let sigma := half_sum s1 s2 in
      assert_ (all_positive u1) (assert_ (all_positive u2)
      (assert_ (all_positive (row_sums s1)) (assert_ (all_positive (row_sums s2))
      (rbind (inv sigma) (fun w =>
       match fdiv (mdet sigma) (mdet s1 * mdet s2) with
       | None => NonFinite
       | Some q => rbind (np_log q) (fun l =>
           Ok (1 / 8 * dot (vm (vsub u1 u2) w) (vsub u1 u2) + 1 / 2 * l))
       end)))))
  | _, _ => NonFinite
  end.
