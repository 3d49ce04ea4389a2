(** Specification vocabulary for quadrics and planes in any dimension. *)
From Coq Require Import Reals Lra List.
From Verif Require Import RVec LNum.
Open Scope R_scope.

(** Value of the quadratic polynomial x'Ax + (b + b')x + c stored in the
    (n+1) x (n+1) matrix C at the point x *)
Definition value (n : nat) (C : matn) (x : vecn) : R :=
  sumn n (fun i => sumn n (fun j => C i j * x i * x j)) + sumn n (fun i => (C i n + C n i) * x i) + C n n.
(** Value of the linear form of the plane (a_0, ..., a_{n-1}, d) at x *)
Definition plane_value (n : nat) (plane x : vecn) : R := sumn n (fun i => plane i * x i) + plane n.
Definition on_plane (n : nat) (plane x : vecn) : Prop := plane_value n plane x = 0.

Definition vplus (u v : vecn) : vecn := fun i => u i + v i.
Definition vminus (u v : vecn) : vecn := fun i => u i - v i.
Definition vtimes (k : R) (v : vecn) : vecn := fun i => k * v i.
(** point on the line from p towards q *)
Definition towards (p q : vecn) (t : R) : vecn := fun i => p i + t * (q i - p i).

Definition positive_definite (n : nat) (A : matn) : Prop :=
  forall x, ~ veq n x (fun _ => 0) -> 0 < sumn n (fun i => sumn n (fun j => A i j * x i * x j)).

(** numpy.linalg.inv returns the two-sided inverse or raises when there is none
    ([LNum.inverse_dec]: such a function exists) *)
Definition numpy_inv (inv : nat -> matn -> option matn) : Prop :=
  forall n A, match inv n A with Some B => is_inverse n A B | None => ~ invertible n A end.

(** orthogonal rows and columns *)
Definition orthogonal (n : nat) (V : matn) : Prop := is_inverse n V (trn V).
(** numpy.linalg.svd of an n x n matrix: A = U diag(s) V *)
Definition is_svdn (n : nat) (A U : matn) (s : vecn) (V : matn) : Prop :=
  orthogonal n U /\ orthogonal n V /\ (forall i, (i < n)%nat -> 0 <= s i) /\
  (forall i j, (i <= j < n)%nat -> s j <= s i) /\
  meq n n A (fun i j => sumn n (fun k => U i k * s k * V k j)).
