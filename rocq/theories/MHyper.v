(** Model of attitude/display/hyperbola.py: error bands in a view plane. *)
From Coq Require Import Reals Lra Lia List Arith Bool.
From Verif Require Import RVec Trig LNum MConics.
Import ListNotations.
Open Scope R_scope.

(** geom/util.py:9-21 for an n x n matrix, one dimension up *)
Definition augment_tensor (n : nat) (M : matn) : matn := fun i j =>
  if (i <? n)%nat && (j <? n)%nat then M i j else idn i j.
(** numpy.diag of a vector *)
Definition diagn (d : vecn) : matn := fun i j => if (i =? j)%nat then d i else 0.
(** a Python sequence read by index *)
Definition vec_of (l : list R) : vecn := fun i => nth i l 0.

(** geom/util.py:55-64 with cos=True; [None]: a zero vector, NaN *)
Definition cos_angle (v1 v2 : list R) : option R :=
  let n := length v1 in
  let d := normn n (vec_of v1) * normn n (vec_of v2) in
  if Req_EM_T d 0 then None else Some (dotn n (vec_of v1) (vec_of v2) / d).
(** [a1[-1] = 0] *)
Definition zero_last (v : list R) : list R := removelast v ++ [0].

(** 2 x 2 matrices, by rows *)
Definition mat2 := ((R * R) * (R * R))%type.
Definition trn2 (m : mat2) : mat2 := let '((a, b), (c, d)) := m in ((a, c), (b, d)).
(** row vector times matrix *)
Definition vmul2 (v : R * R) (m : mat2) : R * R :=
  let '((a, b), (c, d)) := m in (fst v * a + snd v * c, fst v * b + snd v * d).

(** hyperbola.py:9-31.  A NaN cosine fails the comparison with 1e-12 and gives the
    identity.  [axes] is [None] when the caller passed nothing. *)
Definition apparent_dip_correction (axes : option (list (list R))) : res mat2 :=
  match axes with
  | None => Raise TypeError
  | Some [] => Raise IndexError
  | Some ([] :: _) => Raise IndexError
  | Some (a0 :: _) =>
      match cos_angle a0 (zero_last a0) with
      | None => Ok ((1, 0), (0, 1))
      | Some cosa =>
          let d := 1 - cosa * cosa in
          if Rlt_dec (/ 1000000000000) d then
            let sina := if Rlt_dec cosa 0 then sqrt d * -1 else sqrt d in
            Ok ((cosa, sina), (- sina, cosa))
          else Ok ((1, 0), (0, 1))
      end
  end.

Definition vec3_of_list (l : list R) : option vec3 :=
  match l with [x; y; z] => Some (V3 x y z) | _ => None end.

(** hyperbola.py:54-78 (and, word for word, 109-138): the conic in the view plane.
    The offset column of the slice matrix, which is NaN for parallel axes, is not
    read by [semiaxes]; it is taken as zero then. *)
Definition view_conic (inv : inv_fn) (hyp : list R) (T : option matn) (axes : option (list (list R)))
  : res (nat * matn) :=
  let n := length hyp in
  match dual inv n (augment_tensor n (diagn (vec_of hyp))) with
  | Ok D =>
      if (n =? 3)%nat then
        let T := match T with Some T => T | None => idn end in
        let axes := match axes with Some a => a | None => [[0; 1; 0]; [0; 0; 1]] end in
        let D := transform 3 D (augment_tensor 3 T) in
        match axes with
        | a0 :: a1 :: rest =>
            match vec3_of_list a0, vec3_of_list a1, rest with
            | Some v0, Some v1, [] =>
                let nrm := cross v0 v1 in
                let pl := fun i => match i with O => vx nrm | 1%nat => vy nrm | 2%nat => vz nrm | _ => 0 end in
                let pt := match plane_offset 3 pl with Some p => p | None => fun _ => 0 end in
                Ok (2%nat, transform 3 D (slice_matrix 3 [vec_of3 v0; vec_of3 v1] pt))
            | _, _, _ => Raise ValueError
            end
        | _ => Raise IndexError
        end
      else Ok (n, D)
  | Raise e => Raise e
  | NonFinite => NonFinite
  end.

(** hyperbola.py:80-82; an infinite semi-axis (zero diagonal entry) is [NonFinite] *)
Definition view_axes (inv : inv_fn) (hyp : list R) (T : option matn) (axes : option (list (list R))) : res (R * R) :=
  rbind (view_conic inv hyp T axes) (fun '(n, C) =>
  rbind (semiaxes n C) (fun s =>
  if (n <? 2)%nat then Raise IndexError else Ok (sqrt (s 0%nat), sqrt (s 1%nat)))).

(** hyperbola.py:84 and 201 *)
Definition branch (A : R * R) (x : R) : R := snd A * cosh (arcsinh (x / fst A)).

(** hyperbola.py:33-103: (nominal line, bottom, reversed top).  [correct_apparent_dip]
    is not read by the code. *)
Definition hyperbolic_errors (inv : inv_fn) (hyp xvals : list R) (T : option matn) (axes : option (list (list R)))
  (means : option (R * R)) (reverse : bool) : res (list (R * R) * list (R * R) * list (R * R)) :=
  let means := match means with Some m => m | None => (0, 0) end in
  rbind (view_axes inv hyp T axes) (fun A =>
  let axes := match axes with
              | Some a => Some a
              | None => if (length hyp =? 3)%nat then Some [[0; 1; 0]; [0; 0; 1]] else None
              end in
  rbind (apparent_dip_correction axes) (fun ax1 =>
  let ax1 := if reverse then trn2 ax1 else ax1 in
  let place p := let q := vmul2 p ax1 in (fst q + fst means, snd q + snd means) in
  Ok (map (fun x => place (x, 0)) xvals,
      map (fun x => place (x, branch A x * -1)) xvals,
      rev (map (fun x => place (x, branch A x)) xvals)))).

(** hyperbola.py:193-201; [None]: a negative axis, or a division by zero *)
Definition hyperbola_values (hyp : R * R) (xvals : list R) : option (list R) :=
  if Rlt_dec (fst hyp) 0 then None else if Rlt_dec (snd hyp) 0 then None
  else if Req_EM_T (fst hyp) 0 then None
  else Some (map (branch (sqrt (fst hyp), sqrt (snd hyp))) xvals).

(** numpy.linspace(lo, hi, m), m > 1 *)
Definition linspace (lo hi : R) (m : nat) : list R :=
  map (fun k => lo + INR k * ((hi - lo) / INR (m - 1))) (seq 0 m).
(** numpy.sign *)
Definition sgn (x : R) : R := if Rlt_dec 0 x then 1 else if Rlt_dec x 0 then -1 else 0.
(** hyperbola.py:161-176: one branch, as rows of points; [a] is the first semi-axis
    (zero when below 1e-5), used as an angle *)
Definition parametric_branch (H : R * R) (a : R) (means : R * R) (angles : list R) : list (R * R) :=
  let arr := map (fun t => (fst H * tan t, snd H * (1 / cos t))) angles in
  let sg := sgn (snd (hd (0, 0) arr)) in
  let e := snd H / a * 1000000 * sg in
  map (fun p => (fst p * cos a + fst means, snd p * sin a + snd means))
    ((- sg * 1000000, e) :: arr ++ [(sg * 1000000, e)]).
Definition negate_last (l : list (R * R)) : list (R * R) :=
  match l with [] => [] | _ => removelast l ++ [(fst (last l (0, 0)) * -1, snd (last l (0, 0)) * -1)] end.
(** hyperbola.py:105-190.  [NonFinite]: first semi-axis below 1e-5, division by zero *)
Definition hyperbolic_errors_parametric (inv : inv_fn) (hyp : list R) (T : option matn) (axes : option (list (list R)))
  (means : option (R * R)) : res (list (R * R) * list (R * R) * list (R * R)) :=
  let means := match means with Some m => m | None => (0, 0) end in
  rbind (view_conic inv hyp T axes) (fun '(n, C) =>
  rbind (semiaxes n C) (fun s =>
  if negb (n =? 2)%nat then Raise AssertionError else
  let H := (sqrt (s 0%nat), sqrt (s 1%nat)) in
  let cut := atan2 (snd H) (fst H) in
  let angles := linspace cut (PI - cut) 500 in
  let top := map (fun t => t - PI / 2) angles in
  let bottom := rev (map (fun t => t + PI / 2) angles) in
  let axes := match axes with
              | Some a => Some a
              | None => if (length hyp =? 3)%nat then Some [[0; 1; 0]; [0; 0; 1]] else None
              end in
  rbind (apparent_dip_correction axes) (fun ax1 =>
  if Rlt_dec (fst H) (/ 100000) then NonFinite else
  let place p := let q := vmul2 p ax1 in (fst q + fst means, snd q + snd means) in
  let b := parametric_branch H (fst H) means bottom in
  let t := parametric_branch H (fst H) means top in
  Ok (map place [(-10000, 0); (10000, 0)], map place (negate_last b), rev (map place t))))).
