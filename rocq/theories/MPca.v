(** Model of attitude/coordinates/__init__.py:centered and
    attitude/orientation/pca.py:PCAOrientation (3-D data only). *)
From Coq Require Import Reals Lra List Arith.
From Verif Require Import RVec Trig.
Import ListNotations.
Open Scope R_scope.

(** numpy [a.mean(axis=0)]: not finite on an empty array. *)
Definition np_mean (a : list vec3) : option vec3 :=
  match a with
  | [] => None
  | _ => Some (vscale (/ INR (length a)) (vsum a))
  end.

(** coordinates/__init__.py:19-28 *)
Definition centered (a : list vec3) : list vec3 :=
  match np_mean a with
  | None => []
  | Some m => map (fun p => vsub p m) a
  end.

(** pca.py:51-52  [v/norm(v)], non-finite for the zero vector *)
Definition normalize (v : vec3) : option vec3 :=
  if Req_EM_T (norm v) 0 then None else Some (vscale (/ norm v) v).

(** numpy.linalg.svd(a, full_matrices=False): an arbitrary function; its
    contract is a hypothesis of the theorems ([SpecPlane.is_svd]). *)
Definition svd_fn := list vec3 -> list vec3 * vec3 * mat3.

(** Fields of a PCAOrientation.  [p_axes] stands for both [self.axes] and
    [self.V]: line 213 binds them to the same ndarray.  [p_normal_own] models
    aliasing (219-222): [None] = [self.normal] is a numpy view of row 2 of
    [self.axes]; [Some v] = a separate array.  [p_U] is the lazily filled
    [_U]. *)
Record pca : Type := mkPca {
  p_array : list vec3;
  p_mean : option vec3;
  p_arr : list vec3;
  p_weights : vec3;
  p_n : nat;
  p_U : option (list vec3);
  p_s : vec3;
  p_axes : mat3;
  p_offset : vec3;
  p_normal_own : option vec3;
  p_strike : vec3;
  p_dip_dr : option vec3 }.

(** [self.normal] read through the alias *)
Definition p_normal (f : pca) : vec3 :=
  match p_normal_own f with None => r2 (p_axes f) | Some v => v end.

(** pca.py:184-193.  Dividing by a zero weight puts NaN or inf in the array
    and LAPACK raises LinAlgError. *)
Definition vdiv (a w : vec3) : vec3 := V3 (vx a / vx w) (vy a / vy w) (vz a / vz w).
Definition has_zero (w : vec3) : bool :=
  if Req_EM_T (vx w) 0 then true else
  if Req_EM_T (vy w) 0 then true else
  if Req_EM_T (vz w) 0 then true else false.

(** pca.py:174-196 __run_svd *)
Definition run_svd (svd : svd_fn) (arr : list vec3) (w : vec3)
  : res (option (list vec3) * vec3 * mat3) :=
  if (length arr <? 3)%nat then Raise ValueError
  else if has_zero w then Raise LinAlgError
  else let '(u, s, v) := svd (map (fun p => vdiv p w) arr) in
       Ok (Some u, vmul s w, v).

(** column norms: numpy.linalg.norm(axes, axis=0) *)
Definition col_norms (m : mat3) : vec3 :=
  V3 (norm (r0 (mT m))) (norm (r1 (mT m))) (norm (r2 (mT m))).

(** pca.py:198-210 __load_saved_fit: [axes/s] divides column j by [s_j]; a zero
    column gives NaN. *)
Definition load_saved_fit (axes : mat3) : res (option (list vec3) * vec3 * mat3) :=
  let s := col_norms axes in
  if has_zero s then NonFinite
  else Ok (None, s, M3 (vdiv (r0 axes) s) (vdiv (r1 axes) s) (vdiv (r2 axes) s)).

(** pca.py:212-232 __compute_derived_parameters *)
Definition derived_normal (axes : mat3) : option vec3 :=
  if Rlt_dec (vz (r2 axes)) 0 then Some (vneg (r2 axes)) else None.

Definition ones : vec3 := V3 1 1 1.

(** pca.py:123-172 __init__ *)
Definition PCAOrientation (svd : svd_fn) (arr : list vec3)
  (weights : option vec3) (axes : option mat3) : res pca :=
  let mean := np_mean arr in
  let carr := centered arr in
  let w := match weights with None => ones | Some w => w end in
  rbind (match axes with
         | None => run_svd svd carr w
         | Some ax => load_saved_fit ax
         end)
  (fun '(u, s, v) =>
     let sigma := mdiag s in
     let own := derived_normal v in
     let normal := match own with None => r2 v | Some x => x end in
     let strike := cross normal ez in
     Ok {| p_array := arr; p_mean := mean; p_arr := carr; p_weights := w;
           p_n := length carr; p_U := u; p_s := s; p_axes := v;
           p_offset := cross (r0 sigma) (r1 sigma);
           p_normal_own := own; p_strike := strike;
           p_dip_dr := normalize (cross strike normal) |}).

(** pca.py:239-247 property U (value only; the caching store is [read_U]).
    Non-finite when a singular value is zero. *)
Definition U (f : pca) : option (list vec3) :=
  match p_U f with
  | Some u => Some u
  | None =>
      if has_zero (p_s f) then None
      else Some (map (fun p => vdiv (mv (p_axes f) p) (p_s f)) (p_arr f))
  end.

(** pca.py:249-254 *)
Definition eigenvalues (f : pca) : option vec3 :=
  let d := IZR (Z.of_nat (p_n f) - 1) in
  if Req_EM_T d 0 then None
  else Some (V3 (vx (p_s f) * vx (p_s f) / d) (vy (p_s f) * vy (p_s f) / d)
                (vz (p_s f) * vz (p_s f) / d)).

(** pca.py:256-262 *)
Definition rotated (f : pca) : list vec3 := map (mv (p_axes f)) (p_arr f).

(** pca.py:264-274 *)
Definition residuals (f : pca) : list vec3 :=
  map (fun p => let q := mv (p_axes f) p in
                vsub p (vm (V3 (vx q) (vy q) 0) (p_axes f))) (p_arr f).

(** pca.py:276-282 *)
Definition center (f : pca) : option vec3 := p_mean f.
Definition centered_array (f : pca) : list vec3 := p_arr f.

(** base.py:75-77: broadcasting multiplies column j of the axes by s_j *)
Definition principal_axes (f : pca) : mat3 :=
  M3 (vmul (p_s f) (r0 (p_axes f))) (vmul (p_s f) (r1 (p_axes f)))
     (vmul (p_s f) (r2 (p_axes f))).

(** base.py:7-8, 79-81 for an abstract digest *)
Definition uid {H : Type} (sha : mat3 -> H) (f : pca) : H := sha (principal_axes f).

(** numpy.var(x, axis=0): population variance of each column *)
Definition np_var (xs : list R) : option R :=
  match xs with
  | [] => None
  | _ => let m := sumf (fun x => x) xs / INR (length xs) in
         Some (sumf (fun x => (x - m) * (x - m)) xs / INR (length xs))
  end.

(** pca.py:309-317 _covariance_matrix, [type='noise'] branch (the default):
    [4*sigma*var] multiplies column j of the diagonal matrix by var_j, so the
    result is diagonal; only its diagonal is kept here. *)
Definition covariance_noise (f : pca) : option vec3 :=
  match np_var (map vx (rotated f)), np_var (map vy (rotated f)), np_var (map vz (rotated f)) with
  | Some a, Some b, Some c =>
      Some (V3 (4 * vx (p_s f) * a) (4 * vy (p_s f) * b) (4 * vz (p_s f) * c))
  | _, _, _ => None
  end.
(** pca.py:314-315, [type='sampling']; off-diagonal entries are 0 *)
Definition covariance_sampling (f : pca) : option vec3 := eigenvalues f.

(** pca.py:319-337 *)
Definition explained_variance (f : pca) : option R :=
  match covariance_noise f with
  | None => None
  | Some v => fdiv (vx v + vy v) (vx v + vy v + vz v)
  end.

(** pca.py:339-352 *)
Definition coefficients (f : pca) : vec3 := r2 (p_axes f).
Definition azimuth (f : pca) : R := atan2 (vx (coefficients f)) (vy (coefficients f)).
Definition slope (f : pca) : option R :=
  if Req_EM_T (norm (coefficients f)) 0 then None
  else Some (acos (vz (coefficients f) / norm (coefficients f))).

(** base.py:45-46 *)
Definition gradient (f : pca) : R * option R := (azimuth f, slope f).

(** pca.py:361-385, as a function of the third axis *)
Definition strike_dip_of (n : vec3) : option (R * R) :=
  let r := norm n in
  if Req_EM_T r 0 then None else
  let strike := degrees (atan2 (vx n) (vy n)) - 90 in
  let dip := degrees (acos (vz n / r)) in
  let '(strike, dip) :=
    if Rlt_dec 90 dip then (strike + 180, 180 - dip) else (strike, dip) in
  let strike := if Rlt_dec strike 0 then strike + 360 else strike in
  Some (strike, dip).
Definition strike_dip (f : pca) : option (R * R) := strike_dip_of (r2 (p_axes f)).

(** base.py:38-43 *)
Definition dip_direction (f : pca) : option (R * R) :=
  match strike_dip f with None => None | Some (s, d) => Some (s + 90, d) end.

(** geom/util.py:55-64 *)
Definition vangle (v1 v2 : vec3) : option R :=
  let n := norm v1 * norm v2 in
  if Req_EM_T n 0 then None else Some (acos (dot v1 v2 / n)).

(** pca.py:387-396 *)
Definition rake (f : pca) : option R :=
  match p_dip_dr f with
  | None => None
  | Some d => option_map degrees (vangle d (r0 (p_axes f)))
  end.

(** pca.py:398-400 *)
Definition strike_dip_rake (f : pca) : option (R * R * R) :=
  match strike_dip f, rake f with
  | Some (s, d), Some r => Some (s, d, r)
  | _, _ => None
  end.

(** ** Calls that write to the object *)

Definition with_axes (f : pca) (m : mat3) : pca :=
  {| p_array := p_array f; p_mean := p_mean f; p_arr := p_arr f;
     p_weights := p_weights f; p_n := p_n f; p_U := p_U f; p_s := p_s f;
     p_axes := m; p_offset := p_offset f; p_normal_own := p_normal_own f;
     p_strike := p_strike f; p_dip_dr := p_dip_dr f |}.

(** pca.py:404-405 ([self.axes *= -1] in [as_conic], hence also in [_ellipse]
    and [error_ellipse]) and stereonet.py:51-52 ([axes *= -1] in
    [normal_errors(fit.axes, ...)]): in place, so [self.V] and a view
    [self.normal] change too. *)
Definition flip_down_axes (f : pca) : pca :=
  if Rlt_dec (vz (r2 (p_axes f))) 0 then with_axes f (mneg (p_axes f)) else f.

(** pca.py:244-246: reading U fills the cache *)
Definition read_U (f : pca) : pca :=
  match p_U f with
  | Some _ => f
  | None =>
      {| p_array := p_array f; p_mean := p_mean f; p_arr := p_arr f;
         p_weights := p_weights f; p_n := p_n f; p_U := U f; p_s := p_s f;
         p_axes := p_axes f; p_offset := p_offset f; p_normal_own := p_normal_own f;
         p_strike := p_strike f; p_dip_dr := p_dip_dr f |}
  end.

(** Calls a user may make on a fit; the ones that only read leave the state. *)
Inductive call : Set :=
  | CAsConic | CErrorEllipse | CNormalErrors | CU
  | CStrikeDip | CRake | CResiduals | CRotated | CAngularErrors | CToMapping | CHash.

Definition step (f : pca) (c : call) : pca :=
  match c with
  | CAsConic | CErrorEllipse | CNormalErrors => flip_down_axes f
  | CU => read_U f
  | _ => f
  end.

Definition run_calls (f : pca) (cs : list call) : pca := fold_left step cs f.
