(** Model of attitude/orientation/pca.py:PCAOrientation for arrays with two columns. *)
From Coq Require Import Reals Lra List Arith.
From Verif Require Import RVec Trig MAxes Spec2d.
Import ListNotations.
Open Scope R_scope.

(** coordinates/__init__.py:19-28 *)
Definition mean2 (a : list vec2) : vec2 := (sumf fst a / INR (length a), sumf snd a / INR (length a)).
Definition centered2 (a : list vec2) : list vec2 :=
  map (fun p => (fst p - fst (mean2 a), snd p - snd (mean2 a))) a.

Definition svd2_fn := list vec2 -> list vec2 * vec2 * mat2.
Record pca2 : Type := mkPca2 {
  l_arr : list vec2; l_n : nat; l_s : vec2; l_axes : mat2;
  l_normal : vec2; l_strike : R; l_dip_dr : option vec2 }.

(** pca.py:123-237, without weights or axes.  numpy's cross of two 2-vectors is a
    number; that of a number and a vector raises a ValueError, which line 230 catches *)
Definition PCAOrientation2 (svd : svd2_fn) (arr : list vec2) : res pca2 :=
  let a := centered2 arr in
  if (length a <? 3)%nat then Raise ValueError
  else let '(u, s, v) := svd a in
       let normal := if Rlt_dec (snd (q1 v)) 0 then (- fst (q1 v), - snd (q1 v)) else q1 v in
       let strike := fst normal * 1 - snd normal * 0 in
       Ok (mkPca2 a (length a) s v normal strike None).

(** pca.py:249-254 *)
Definition eigenvalues2 (f : pca2) : option vec2 :=
  let d := INR (l_n f) - 1 in
  obind (fdiv (fst (l_s f) * fst (l_s f)) d) (fun a =>
  obind (fdiv (snd (l_s f) * snd (l_s f)) d) (fun b => Some (a, b))).
(** pca.py:256-274 *)
Definition rotated2 (f : pca2) : list vec2 := map (fun p => (dot2 p (q0 (l_axes f)), dot2 p (q1 (l_axes f)))) (l_arr f).
Definition residuals2 (f : pca2) : list vec2 :=
  map (fun p => let t := dot2 p (q0 (l_axes f)) in
                (fst p - (t * fst (q0 (l_axes f)) + 0 * fst (q1 (l_axes f))),
                 snd p - (t * snd (q0 (l_axes f)) + 0 * snd (q1 (l_axes f))))) (l_arr f).
(** numpy.var(axis=0) *)
Definition var2 (xs : list R) : option R :=
  obind (fdiv (sumf (fun x => x) xs) (INR (length xs))) (fun m =>
  fdiv (sumf (fun x => (x - m) * (x - m)) xs) (INR (length xs))).
(** pca.py:309-337: the first two of two entries *)
Definition explained_variance2 (f : pca2) : option R :=
  obind (var2 (map fst (rotated2 f))) (fun a =>
  obind (var2 (map snd (rotated2 f))) (fun b =>
  let v0 := 4 * fst (l_s f) * a in let v1 := 4 * snd (l_s f) * b in
  fdiv (v0 + v1) (v0 + v1))).
(** axes.py:31-53, 108-165: noise axes at the level of 95 % *)
Definition noise_axes2 (st : stats) (f : pca2) : option vec2 :=
  obind (eigenvalues2 f) (fun e =>
  obind (fdiv (snd e) (INR (l_n f) - 2)) (fun k =>
  obind (fisher_statistic st (INR (l_n f)) (95/100) 2) (fun z =>
  obind (fsqrt (4 * fst e * k)) (fun r0 =>
  obind (fsqrt (4 * snd e * k)) (fun r1 =>
  Some (Rabs (fst e - z * r0), Rabs (snd e * -1 - z * r1))))))).
(** axes.py:67-78, pca.py:297-307: one angle per axis but the last *)
Definition angular_errors2 (st : stats) (f : pca2) : option (list R) :=
  obind (noise_axes2 st f) (fun h =>
  obind (fsqrt (fst h)) (fun a => obind (fsqrt (snd h)) (fun b => Some [degrees (atan2 b a)]))).
(** pca.py:339-385: axes[2] of two rows *)
Definition strike_dip2 (f : pca2) : res (R * R) :=
  match nth_error [q0 (l_axes f); q1 (l_axes f)] 2 with
  | None => Raise IndexError
  | Some _ => NonFinite
  end.
(** pca.py:387-396: norm(None) *)
Definition rake2 (f : pca2) : res R :=
  match l_dip_dr f with None => Raise TypeError | Some d => NonFinite end.
(** pca.py:398-400, base.py:91-118: strike_dip comes first *)
Definition to_mapping2 (f : pca2) : res unit := rbind (strike_dip2 f) (fun _ => rbind (rake2 f) (fun _ => Ok tt)).
