(** Model of the plotting core of the browser front end:
    frontend/packages/attitude/src/{math,functions,hyperbola,util,reconstruct}.ts.

    A JavaScript number is [option R], [None] being NaN.  Where a division by zero
    would give an infinity the model says [NonFinite].  Signed zeros are not modelled. *)
From Coq Require Import Reals Lra Lia List Arith String ZArith.
From Verif Require Import RVec Trig MPca MAxes.
Import ListNotations.
Open Scope R_scope.
Notation length := List.length.

Definition num := option R.
Definition jmul (a b : num) : num := obind a (fun x => obind b (fun y => Some (x * y))).
(** [a / b], for [b] not 0 *)
Definition jdiv (a b : num) : num := obind a (fun x => obind b (fun y => Some (x / y))).
Definition jneg (a : num) : num := obind a (fun x => Some (- x)).

(** d3.sum: values that are not numbers are left out *)
Fixpoint d3_sum (l : list num) : R :=
  match l with
  | [] => 0
  | None :: t => d3_sum t
  | Some x :: t => x + d3_sum t
  end.

(** math.ts:15-19 *)
Definition js_norm (d : list num) : R := sqrt (d3_sum (map (fun a => jmul a a) d)).

(** math.ts:21-24.  The range is inclusive, so one index past the end is read;
    that product is NaN and d3.sum leaves it out. *)
Definition sdot (a b : list num) : R :=
  d3_sum (map (fun i => jmul (nth i a None) (nth i b None)) (seq 0 (S (length a)))).

(** math.ts:4 *)
Definition row (v : vec3) : list num := [Some (vx v); Some (vy v); Some (vz v)].
Definition transpose := mT.

(** math.ts:26-63: the closure made by [ellipse(opts)], called with (a, b).
    The loop runs for i < n/2. *)
Definition ell_half (n : nat) (a b : num) : list (num * num) :=
  let v := INR n / 2 in
  let stepSize := 2 / v in
  map (fun i => let sinAngle := -1 + INR i * stepSize in
         (jmul b (Some (cos (asin sinAngle))), jmul a (Some sinAngle)))
      (seq 0 (Nat.div2 (S n))).
Definition ell_adaptive (n : nat) (a b : num) : list (num * num) :=
  let angles := ell_half n a b in
  let a1 := rev (map (fun '(x, y) => (jneg x, y)) (tl angles)) in
  (angles ++ [(Some 0, a)] ++ a1)%list.

(** math.ts:65-95.  The latitude of the zero vector is NaN. *)
Definition js_cart2sph (degrees traditional upper : bool) (d : vec3) : R * num :=
  let c := if degrees then 180 / PI else 1 in
  let r := js_norm (row d) in
  let '(x, y, z) := if traditional then (vz d, vx d, vy d) else (- vy d, vx d, vz d) in
  let z := if upper then z else - z in
  (c * atan2 y x, if Req_EM_T r 0 then None else Some (c * asin (z / r))).

Record opts := mkOpts { o_n : nat; o_degrees : bool; o_traditional : bool; o_upper : bool }.
Definition to_sph (o : opts) : vec3 -> R * num := js_cart2sph (o_degrees o) (o_traditional o) (o_upper o).

(** The dot products of [e] with the columns of the axes, math.ts:118, 138 and 197-199 *)
Definition along (e : list num) (axes : mat3) : vec3 :=
  let t := transpose axes in V3 (sdot e (row (r0 t))) (sdot e (row (r1 t))) (sdot e (row (r2 t))).

(** math.ts:97-143.  The defaults of the options are filled in by the caller of the model. *)
Definition plane_scale (sheet : string) : num :=
  if String.eqb sheet "upper" then Some 1
  else if String.eqb sheet "lower" then Some (-1)
  else if String.eqb sheet "nominal" then Some 0 else None.
Definition plane_step (s0 s1 s2 c1 : num) (axes : mat3) (a : num * num) : vec3 :=
  along [snd a; fst a; jmul s2 c1] axes.
Definition plane_errors (hyp : vec3) (axes : mat3) (sheet : string) (o : opts) : list (R * num) :=
  let s0 := fsqrt (vx hyp) in
  let s1 := fsqrt (vy hyp) in
  let s2 := fsqrt (vz hyp) in
  let c1 := plane_scale sheet in
  let c1 := if o_upper o then jmul c1 (Some (-1)) else c1 in
  let c1 := if Rlt_dec (vz (r2 (transpose axes))) 0 then jmul c1 (Some (-1)) else c1 in
  map (to_sph o) (map (plane_step s0 s1 s2 c1 axes) (ell_adaptive (o_n o) s0 s1)).

(** math.ts:153-206.  Division by a zero axis gives infinities. *)
Definition normal_scale (sheet : string) : num :=
  if String.eqb sheet "upper" then Some 1
  else if String.eqb sheet "lower" then Some (-1) else None.
Definition normal_step (s0 s1 s2 c1 v0 : num) (axes : mat3) (es : num * num) : vec3 :=
  let e := fun d s => jdiv (jmul (jmul (jneg d) c1) s2) s in
  along [e (fst es) s0; e (snd es) s1; jmul (Some (js_norm [fst es; snd es])) v0] axes.
Definition normal_errors (hyp : vec3) (axes : mat3) (sheet : string) (level : num) (o : opts)
  : res (list (R * num)) :=
  let s0 := fsqrt (vx hyp) in
  let s1 := fsqrt (vy hyp) in
  let s2 := fsqrt (vz hyp) in
  let v0 := normal_scale sheet in
  let c1 := jmul (Some 1) v0 in
  let c1 := if o_upper o then jmul c1 (Some (-1)) else c1 in
  let c1 := jmul c1 level in
  if Req_EM_T (vx hyp) 0 then NonFinite
  else if Req_EM_T (vy hyp) 0 then NonFinite
  else Ok (map (to_sph o) (map (normal_step s0 s1 s2 c1 v0 axes) (ell_adaptive (o_n o) s0 s1))).

(** math.ts:208-224 *)
Record bands := mkBands { b_nominal : list (R * num); b_upper : list (R * num); b_lower : list (R * num) }.
Definition combined_errors (hyp : vec3) (axes : mat3) (o : opts) : bands :=
  let o := mkOpts (o_n o) true (o_traditional o) (o_upper o) in
  mkBands (plane_errors hyp axes "nominal" o) (plane_errors hyp axes "upper" o) (plane_errors hyp axes "lower" o).

(** math.ts:237-257: the argument is normalised in place and is also the second
    result.  A zero column becomes NaN. *)
Definition deconvolve_axes (axes : mat3) : option (vec3 * mat3) :=
  let ax := transpose axes in
  let sv := V3 (js_norm (row (r0 ax))) (js_norm (row (r1 ax))) (js_norm (row (r2 ax))) in
  if Req_EM_T (vx sv) 0 then None
  else if Req_EM_T (vy sv) 0 then None
  else if Req_EM_T (vz sv) 0 then None
  else
    let d := fun v => V3 (vx v / vx sv) (vy v / vy sv) (vz v / vz sv) in
    Some (sv, M3 (d (r0 axes)) (d (r1 axes)) (d (r2 axes))).
(** math.ts:226-235 *)
Definition convolve_axes (axes : mat3) (sv : vec3) : option mat3 :=
  obind (deconvolve_axes axes) (fun '(residual, axes) =>
    let f := fun k v => V3 (vx v * k) (vy v * k) (vz v * k) in
    Some (M3 (f (vx sv) (r0 axes)) (f (vy sv) (r1 axes)) (f (vz sv) (r2 axes)))).

(** reconstruct.ts:24-29, the lengths of the hyperbolic axes; a zero error makes
    the length infinite.  The axes (lines 18-22, 33) come from modules that the
    repository does not have. *)
Definition recon_hyp (minError maxError : R) : res vec3 :=
  let emax := maxError / 2 * PI / 180 in
  let emin := minError / 2 * PI / 180 in
  if Req_EM_T (tan emin) 0 then NonFinite
  else if Req_EM_T (tan emax) 0 then NonFinite
  else Ok (V3 (1 / (tan emin * tan emin)) (1 / (tan emax * tan emax)) 1).

(** * functions.ts *)
(** functions.ts:56-61: the third row of the caller's matrix is replaced *)
Definition flip_axes (axes : mat3) : mat3 :=
  if Rlt_dec (vz (r2 axes)) 0 then M3 (r0 axes) (r1 axes) (vneg (r2 axes)) else axes.

(** functions.ts:63-81; [recon] stands for reconstructErrors.  The result is the pair
    returned, and the props object afterwards. *)
Record props := mkProps {
  pr_hyp : option vec3; pr_axes : option mat3; pr_cov : option vec3; pr_strike : option R }.
Definition construct_axes (recon : props -> res (vec3 * mat3)) (p : props)
  : res ((option vec3 * mat3) * props) :=
  let hyp := match pr_hyp p with Some h => Some h | None => pr_cov p end in
  match hyp, pr_strike p with
  | None, Some _ => rbind (recon p) (fun '(h, ax) => Ok ((Some h, flip_axes ax), p))
  | _, _ =>
    match pr_axes p with
    | None => Raise TypeError
    | Some ax => let ax := flip_axes ax in
        Ok ((hyp, ax), mkProps (pr_hyp p) (Some ax) (pr_cov p) (pr_strike p))
    end
  end.

(** functions.ts:24-46: the polygon's rings, and the object [d] afterwards;
    [contains] stands for d3.geoContains.  The rings are d's own arrays. *)
Section Surface.
  Context {P : Type}.
  Record sheets := mkSheets { sh_nominal : list P; sh_upper : list P; sh_lower : list P }.
  Definition error_surface (contains : list (list P) -> P -> bool) (d : sheets)
    : res (list (list P) * sheets) :=
    let upper := rev (sh_upper d) in
    let e := [sh_lower d; upper] in
    match sh_nominal d with
    | [] => Raise TypeError
    | p :: _ =>
      if contains e p then Ok (e, mkSheets (sh_nominal d) upper (sh_lower d))
      else Ok (map (@rev P) e, mkSheets (sh_nominal d) (rev upper) (rev (sh_lower d)))
    end.
End Surface.
Arguments sheets : clear implicits.

(** * util.ts *)
(** JavaScript values that options hold *)
Inductive jsv :=
| JUndef | JNull | JBool (b : bool) | JNum (x : num) | JStr (s : string) | JArr (l : list num).
Definition truthy (v : jsv) : bool :=
  match v with
  | JUndef | JNull => false
  | JBool b => b
  | JNum None => false
  | JNum (Some x) => if Req_EM_T x 0 then false else true
  | JStr s => negb (String.eqb s "")
  | JArr _ => true
  end.
Definition obj := list (string * jsv).
Fixpoint get (k : string) (o : obj) : jsv :=
  match o with [] => JUndef | (k', v) :: t => if String.eqb k k' then v else get k t end.
Fixpoint set_key (k : string) (v : jsv) (o : obj) : obj :=
  match o with
  | [] => [(k, v)]
  | (k', v') :: t => if String.eqb k k' then (k, v) :: t else (k', v') :: set_key k v t
  end.
(** util.ts:11-17 *)
Definition clone_options (o newProps : obj) : obj :=
  map (fun kv => (fst kv, if truthy (get (fst kv) newProps) then get (fst kv) newProps else get (fst kv) o)) o.

(** functions.ts:149-170: the options of each of the functions returned *)
Definition ellipse_options (o : obj) : obj * list obj :=
  let o := match get "level" o with JUndef | JNull => set_key "level" (JNum (Some 1)) o | _ => o end in
  let at_level := fun l => clone_options o [("level"%string, l)] in
  (o, match get "level" o with
      | JArr ls => map (fun x => at_level (JNum x)) ls
      | l => [at_level l]
      end).

(** What the centroid functions read of a PlaneData: its centre and the length of
    its centered array, if it has one. *)
Record plane_data := mkPlane { pl_center : vec3; pl_len : option nat }.
(** util.ts:19-38; [d3_global] says whether the page defines a global d3, which the
    module does not import.  The division by [totalLength] is inside the sum. *)
Definition centroid_average (d3_global : bool) (planes : list plane_data) : res vec3 :=
  let total := fold_left (fun t p => (t + match pl_len p with Some n => n | None => 0 end)%nat) planes 0%nat in
  let weights := map (fun p => match pl_len p with
    | None => vzero
    | Some n => V3 (vx (pl_center p) * INR n) (vy (pl_center p) * INR n) (vz (pl_center p) * INR n) end) planes in
  let at_ := fun (f : vec3 -> R) => d3_sum (map (fun w => fdiv (f w) (INR total)) weights) in
  if d3_global then Ok (V3 (at_ vx) (at_ vy) (at_ vz)) else Raise NameError.

(** util.ts:40-57, one coordinate *)
Definition extreme_step (c : R) (ext : option (R * R)) : option (R * R) :=
  let '(mn, mx) := match ext with None => (c, c) | Some e => e end in
  Some (if Rlt_dec c mn then c else mn, if Rlt_dec mx c then c else mx).
Definition extremes (f : vec3 -> R) (planes : list plane_data) : option (R * R) :=
  fold_left (fun e p => extreme_step (f (pl_center p)) e) planes None.
Definition centroid_extrema (planes : list plane_data) : res vec3 :=
  match extremes vx planes, extremes vy planes, extremes vz planes with
  | Some (a, b), Some (c, d), Some (e, f) => Ok (V3 ((a + b) / 2) ((c + d) / 2) ((e + f) / 2))
  | _, _, _ => Raise TypeError
  end.

(** * hyperbola.ts *)
(** hyperbola.ts:26-35, the two loops with fuel; [None]: out of fuel *)
Fixpoint turn_down (fuel : nat) (a : R) : option R :=
  if Rlt_dec PI a then match fuel with O => None | S k => turn_down k (a - 2 * PI) end else Some a.
Fixpoint turn_up (fuel : nat) (a : R) : option R :=
  if Rlt_dec a (- PI) then match fuel with O => None | S k => turn_up k (a + 2 * PI) end else Some a.
Definition fix_angle (fuel : nat) (a : R) : option R := obind (turn_down fuel a) (turn_up fuel).

(** hyperbola.ts:510-516; [n] is the third axis *)
Definition dip (fuel : nat) (n : vec3) : option (R * R) :=
  let r := norm n in
  if Req_EM_T r 0 then None
  else obind (fix_angle fuel (atan2 (vx n) (vy n))) (fun dipDr => Some (acos (vz n / r), dipDr)).
(** hyperbola.ts:518-527; the tangent of the dip of a vertical plane is not finite *)
Definition apparent_dip (fuel : nat) (n : vec3) (azimuth : R) : option R :=
  obind (dip fuel n) (fun '(dip, _) =>
  let dipDr := atan2 (vx n) (vy n) in
  obind (fix_angle fuel (azimuth - dipDr)) (fun a =>
  let sign := if Rlt_dec (- PI / 2) a then 1 else if Rlt_dec a (PI / 2) then 1 else -1 in
  if Req_EM_T (cos dip) 0 then None
  else Some (sign * atan (tan dip * cos (azimuth - dipDr))))).

(** hyperbola.ts:77-90: a linear scale is given by its ratio and its origin *)
Definition screen_ratio (ratioX ratioY : R) : R := ratioX / ratioY.
(** hyperbola.ts:124-125 and 270-271: rotation in degrees given to the SVG element *)
Definition trace_rotation (fuel : nat) (n : vec3) (viewpoint ratioX ratioY : R) : option R :=
  obind (apparent_dip fuel n (- viewpoint + PI / 2)) (fun v =>
  Some (- atan2 (tan v) (screen_ratio ratioX ratioY) * 180 / PI)).

(** hyperbola.ts:92-96 and 52-56: [vecAngle] is the cosine *)
Definition plane_angle (axes : mat3) (angle : R) : option R :=
  let a0 := r0 axes in
  let p := V3 (vx a0) (vy a0) 0 in
  if Req_EM_T (norm p) 0 then None
  else Some (angle - acos (dot (vscale (/ norm p) p) (vscale (/ norm ex) ex))).
(** hyperbola.ts:182-194: semiaxes of the sliced hyperbola and half the angular error *)
Definition cut (lengths : vec3) (a1 : R) : option (R * R * R) :=
  obind (vsqrt lengths) (fun s =>
  if Req_EM_T (vx s) 0 then None
  else if Req_EM_T (vy s) 0 then None
  else if Req_EM_T (vz s) 0 then None
  else
    let v0 := 1 / vx s * cos a1 in
    let v1 := 1 / vy s * sin a1 in
    let a := 1 / sqrt (v0 * v0 + v1 * v1) in
    let b := 1 / Rabs (1 / vz s) in
    Some (a, b, atan2 b a)).
(** hyperbola.ts:170-172, 182-194 with the matrix [axes] the identity (side-view.ts:188-189) *)
Definition shown_half_error (axes : mat3) (lengths : vec3) (viewpoint : R) : option R :=
  obind (plane_angle axes viewpoint) (fun a1 =>
  obind (cut lengths a1) (fun '(_, _, c) => Some c)).
(** hyperbola.ts:225-238, the polygon drawn *)
Definition outline (a b width ratioX : R) : list (R * R) :=
  let large := width / ratioX in
  let limit := b / a * large in
  let coords := [(- large, limit); (0, b); (large, limit)] in
  (coords ++ rev (map (fun '(x, y) => (x, - y)) coords))%list.
