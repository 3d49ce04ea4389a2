(** Model of attitude/geom/conics.py and of the planes of attitude/geom/util.py.
    A conic of dimension [n] is an (n+1) x (n+1) matrix; index [n] is the
    homogeneous coordinate.  Arrays are index functions, read on their range. *)
From Coq Require Import Reals Lra Lia List Arith Bool.
From Verif Require Import RVec Trig LNum.
Import ListNotations.
Open Scope R_scope.

(** numpy.linalg.inv of an n x n array; [None]: LinAlgError (singular) *)
Definition inv_fn := nat -> matn -> option matn.
(** numpy.linalg.svd of an n x n array: (U, s, V) *)
Definition svdn_fn := nat -> matn -> matn * vecn * matn.

(** geom/util.py:34-40 *)
Definition augment (n : nat) (v : vecn) : vecn := fun i => if (i <? n)%nat then v i else 1.
(** numpy.linalg.norm of the first [n] entries *)
Definition normn (n : nat) (v : vecn) : R := sqrt (sumn n (fun i => v i * v i)).

(** ** Planes *)
(** geom/util.py:67-73; [None]: zero normal, division by zero *)
Definition hessian_normal (n : nat) (plane : vecn) : option vecn :=
  if Req_EM_T (normn n plane) 0 then None else Some (fun i => plane i / normn n plane).
(** geom/util.py:75-81 *)
Definition plane_offset (n : nat) (plane : vecn) : option vecn :=
  option_map (fun v i => - (v i * v n)) (hessian_normal n plane).
(** geom/util.py:83-85 *)
Definition plane_normal_of (n : nat) (plane : vecn) : option vecn := hessian_normal n plane.

Definition vec_of3 (v : vec3) : vecn := fun i => match i with O => vx v | 1%nat => vy v | _ => vz v end.
Definition to_vec3 (v : vecn) : vec3 := V3 (v 0%nat) (v 1%nat) (v 2%nat).

(** geom/util.py:99-110, three dimensions: cross products with e_z, e_y, e_x *)
Definition perpendicular3 (n : vec3) : res vec3 :=
  let try e k := if Req_EM_T (norm (cross n e)) 0 then k else Ok (cross n e) in
  try ez (try ey (try ex (Raise ValueError))).
(** geom/util.py:97-98, two dimensions: [n[::-1]] *)
Definition perpendicular2 (n : R * R) : R * R := (snd n, fst n).
(** any other dimension: numpy.cross, or the last line, raises ValueError *)
Definition perpendicular_vector (dim : nat) (n : vecn) : res vecn :=
  match dim with
  | 2%nat => Ok (fun i => match i with O => n 1%nat | _ => n 0%nat end)
  | 3%nat => match perpendicular3 (to_vec3 n) with Ok v => Ok (vec_of3 v) | Raise e => Raise e | NonFinite => NonFinite end
  | _ => Raise ValueError
  end.

(** ** Conics *)
(** conics.py:29-38 *)
Definition from_axes (n : nat) (a : vecn) : matn :=
  fun i j => if (i =? j)%nat then (if (i <? n)%nat then a i else -1) else 0.
(** conics.py:40-49; [None]: a zero semi-axis *)
Definition from_semiaxes (n : nat) (a : vecn) : option matn :=
  if existsb (fun i => if Req_EM_T (a i) 0 then true else false) (seq 0 n) then None
  else Some (fun i j => if (i =? j)%nat then (if (i <? n)%nat then 1 / (a i * a i) else -1) else 0).

(** conics.py:105-111: [dot(v.T, conic, v)] for a vector and for a matrix *)
Definition solve (k : nat) (C : matn) (v : vecn) : R := dotn k (vmul_mat k v C) v.
Definition solve_mat (k : nat) (C T : matn) : matn := mulm k (mulm k (trn T) C) T.
(** conics.py:113-118; [n] is the dimension of the conic, the result has as many
    rows and columns as T has columns *)
Definition transform (n : nat) (C T : matn) : matn := solve_mat (S n) C T.
(** conics.py:120-127 *)
Definition translate (n : nat) (C : matn) (v : vecn) : matn :=
  transform n C (fun i j => if (i <? n)%nat && (j =? n)%nat then - v i else idn i j).

(** conics.py:57-67; [allclose(_, 0)] is |_| <= 1e-8 *)
Definition contains (n : nat) (C : matn) (p : vecn) (shell_only : bool) : Prop :=
  let s := solve (S n) C (augment n p) in
  if shell_only then Rabs s <= / 100000000 else s <= 0.

(** conics.py:51-55; the submatrix [:-1,:-1] is C itself read at indices below n *)
Definition center (inv : inv_fn) (n : nat) (C : matn) : res vecn :=
  match inv n C with Some ec => Ok (mulv n ec (fun i => - C i n)) | None => Raise LinAlgError end.

(** conics.py:69-78; [NonFinite]: zero diagonal entry *)
Definition semiaxes (n : nat) (C : matn) : res vecn :=
  if existsb (fun i => if Req_EM_T (C i i) 0 then true else false) (seq 0 n) then NonFinite
  else Ok (fun i => / Rabs (C i i)).

(** conics.py:80-87: [sqrt(s*scalar)*V] scales column j by sqrt(s_j*scalar) *)
Definition total (n : nat) (A : matn) : R := sumn n (fun i => sumn n (fun j => A i j)).
Definition major_axes (svd : svdn_fn) (n : nat) (C : matn) : res matn :=
  let '(_, s, V) := svd n C in
  let scalar := - (total (S n) C - total n C) in
  if existsb (fun j => if Rlt_dec (s j * scalar) 0 then true else false) (seq 0 n) then NonFinite
  else Ok (fun k j => sqrt (s j * scalar) * V k j).

(** conics.py:89-103 with numpy.linalg.det as the determinant, expanded along the
    first row *)
Definition minor (A : matn) (j : nat) : matn := fun i l => A (S i) (if (l <? j)%nat then l else S l).
Fixpoint det (n : nat) (A : matn) : R :=
  match n with
  | O => 1
  | S k => sumn (S k) (fun j => (-1) ^ j * A 0%nat j * det k (minor A j))
  end.
Definition is_elliptical (n : nat) (C : matn) : Prop := det n C > 0.
Definition is_hyperbolic (n : nat) (C : matn) : Prop := det n C < 0.
Definition is_parabolic (n : nat) (C : matn) : Prop := det n C = 0.

(** conics.py:129-137 *)
Definition polar_plane (n : nat) (C : matn) (v : vecn) : vecn := mulv (S n) C (augment n v).
(** conics.py:139-145 *)
Definition pole_of (inv : inv_fn) (n : nat) (C : matn) (plane : vecn) : res vecn :=
  match inv (S n) C with
  | None => Raise LinAlgError
  | Some D => let v := mulv (S n) D plane in
              if Req_EM_T (v n) 0 then NonFinite else Ok (fun i => v i / v n)
  end.
(** conics.py:194-201 *)
Definition dual (inv : inv_fn) (n : nat) (C : matn) : res matn :=
  match inv (S n) C with Some D => Ok D | None => Raise LinAlgError end.

(** conics.py:147-179.  The columns of [m] are the axes and the plane's offset
    point; with another number of axes than dim-1 numpy.append raises ValueError.
    Result: the conic, [transform = m.T] and the offset. *)
Definition slice_matrix (n : nat) (axes : list vecn) (pt : vecn) : matn := fun i j =>
  if (i =? n)%nat then (if (j =? n - 1)%nat then 1 else 0)
  else nth j (axes ++ [pt]) (fun _ => 0) i.
Definition default_axes (n : nat) (normal : vecn) : res (list vecn) :=
  rbind (perpendicular_vector n normal) (fun v1 =>
  Ok (if (n =? 3)%nat then [v1; vec_of3 (cross (to_vec3 v1) (to_vec3 normal))] else [v1])).
Definition slice (n : nat) (C : matn) (plane : vecn) (axes : option (list vecn)) : res (matn * matn * vecn) :=
  match plane_normal_of n plane, plane_offset n plane with
  | Some normal, Some pt =>
      rbind (match axes with None => default_axes n normal | Some a => Ok a end) (fun axes =>
      if (length axes =? n - 1)%nat then
        let m := slice_matrix n axes pt in Ok (transform n C m, trn m, pt)
      else Raise ValueError)
  | _, _ => NonFinite
  end.
(** conics.py:181-192 *)
Definition projection (n : nat) (C : matn) (viewpoint : option vecn) (axes : option (list vecn)) : res (matn * matn * vecn) :=
  let viewpoint := match viewpoint with Some v => v | None => fun _ => 0 end in
  slice n C (polar_plane n C viewpoint) axes.

(** conics.py:8-26 for the three-dimensional case: the two semi-axis lengths in
    descending order over the distance of the offset.  With [tangent] a zero
    distance is a division by zero. *)
Definition angle_subtended (svd : svdn_fn) (C : matn) (viewpoint : option vecn) (tangent : bool) : res (R * R) :=
  rbind (projection 3 C viewpoint None) (fun '(con, _, offset) =>
  rbind (major_axes svd 2 con) (fun ax =>
  let l0 := normn 2 (ax 0%nat) in let l1 := normn 2 (ax 1%nat) in
  let A := (Rmax l0 l1, Rmin l0 l1) in
  let B := normn 3 offset in
  if tangent then (if Req_EM_T B 0 then NonFinite else Ok (fst A / B, snd A / B))
  else Ok (atan2 (fst A) B, atan2 (snd A) B))).
