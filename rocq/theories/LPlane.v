(** Two perpendicular vectors span the plane perpendicular to a unit vector. *)
From Coq Require Import Reals Lra Nsatz.
From Verif Require Import RVec.
Open Scope R_scope.

Lemma plane_basis : forall n v w, dot n n = 1 -> dot v n = 0 -> dot w n = 0 ->
  vscale (dot v v) w = vadd (vscale (dot w v) v) (vscale (dot w (cross v n)) (cross v n)).
Proof. intros [a b c] [x y z] [p q r]. vunf. intros H1 H2 H3. apply vec3_eq; simpl; nsatz. Qed.
Lemma cross_unit_len : forall n v, dot n n = 1 -> dot v n = 0 -> dot (cross v n) (cross v n) = dot v v.
Proof. intros [a b c] [x y z]. vunf. intros H1 H2. nsatz. Qed.
