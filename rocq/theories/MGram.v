(** Model of two helpers of the PCA module, attitude/orientation/pca.py:57-71
    (axis_transform) and 83-107 (covariance_matrix, the function outside the class). *)
From Coq Require Import Reals List.
From Verif Require Import RVec MPca.
Import ListNotations.
Open Scope R_scope.

(** pca.py:57-71; [lstsq] is the first result of numpy.linalg.lstsq *)
Definition axis_transform (lstsq : mat3 -> mat3 -> mat3) (pca_axes : mat3) : mat3 := lstsq (mdiag ones) pca_axes.
(** pca.py:83-107, a list of rows *)
Definition covariance_matrix (f : pca) : option (list (list R)) :=
  match U f with
  | None => None
  | Some u => let a := map (fun ui => vmul ui (p_s f)) u in Some (map (fun p => map (dot p) a) a)
  end.
