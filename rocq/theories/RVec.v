(** Library: 3-vectors, 3x3 matrices (as three rows) and finite sums over
    lists, over the standard library reals.  Nothing here is a model of
    Attitude code; it is the arithmetic that numpy provides. *)
From Coq Require Import Reals Lra Lia List Psatz Permutation.
Import ListNotations.
Open Scope R_scope.

(** * Outcomes of a Python call *)
Inductive exn : Set :=
  | ValueError | KeyError | GroupedPlaneError | AttributeError
  | LinAlgError | TypeError | IndexError | NameError | AssertionError.

(** [NonFinite]: the call returns, but the value holds a NaN or an infinity. *)
Inductive res (A : Type) : Type :=
  | Ok (a : A)
  | Raise (e : exn)
  | NonFinite.
Arguments Ok {A} _.
Arguments Raise {A} _.
Arguments NonFinite {A}.

Definition rbind {A B} (r : res A) (f : A -> res B) : res B :=
  match r with Ok a => f a | Raise e => Raise e | NonFinite => NonFinite end.

(** Floating division: the result is not finite when the divisor is zero. *)
Definition fdiv (a b : R) : option R :=
  if Req_EM_T b 0 then None else Some (a / b).

(** * Vectors *)
Record vec3 : Type := V3 { vx : R; vy : R; vz : R }.

Definition vzero : vec3 := V3 0 0 0.
Definition vadd (a b : vec3) := V3 (vx a + vx b) (vy a + vy b) (vz a + vz b).
Definition vsub (a b : vec3) := V3 (vx a - vx b) (vy a - vy b) (vz a - vz b).
Definition vneg (a : vec3) := V3 (- vx a) (- vy a) (- vz a).
Definition vscale (k : R) (a : vec3) := V3 (k * vx a) (k * vy a) (k * vz a).
(** numpy's elementwise product *)
Definition vmul (a b : vec3) := V3 (vx a * vx b) (vy a * vy b) (vz a * vz b).
Definition dot (a b : vec3) : R := vx a * vx b + vy a * vy b + vz a * vz b.
Definition cross (a b : vec3) : vec3 :=
  V3 (vy a * vz b - vz a * vy b)
     (vz a * vx b - vx a * vz b)
     (vx a * vy b - vy a * vx b).
Definition nrm2 (a : vec3) : R := dot a a.
Definition norm (a : vec3) : R := sqrt (nrm2 a).
Definition ex : vec3 := V3 1 0 0.
Definition ey : vec3 := V3 0 1 0.
Definition ez : vec3 := V3 0 0 1.

Lemma vec3_eq : forall a b : vec3,
  vx a = vx b -> vy a = vy b -> vz a = vz b -> a = b.
Proof. intros [] [] H1 H2 H3; simpl in *; subst; reflexivity. Qed.

Ltac vunf := unfold nrm2, norm, dot, cross, vadd, vsub, vneg, vscale, vmul, vzero,
  ex, ey, ez in *; simpl in *.
Ltac vring := intros; try (apply vec3_eq); vunf; ring.

(** * Matrices as three rows *)
Record mat3 : Type := M3 { r0 : vec3; r1 : vec3; r2 : vec3 }.

Lemma mat3_eq : forall a b : mat3,
  r0 a = r0 b -> r1 a = r1 b -> r2 a = r2 b -> a = b.
Proof. intros [] [] H1 H2 H3; simpl in *; subst; reflexivity. Qed.

Definition mT (m : mat3) : mat3 :=
  M3 (V3 (vx (r0 m)) (vx (r1 m)) (vx (r2 m)))
     (V3 (vy (r0 m)) (vy (r1 m)) (vy (r2 m)))
     (V3 (vz (r0 m)) (vz (r1 m)) (vz (r2 m))).
(** matrix times column vector *)
Definition mv (m : mat3) (v : vec3) : vec3 :=
  V3 (dot (r0 m) v) (dot (r1 m) v) (dot (r2 m) v).
(** row vector times matrix *)
Definition vm (v : vec3) (m : mat3) : vec3 :=
  vadd (vscale (vx v) (r0 m)) (vadd (vscale (vy v) (r1 m)) (vscale (vz v) (r2 m))).
Definition mm (a b : mat3) : mat3 := M3 (vm (r0 a) b) (vm (r1 a) b) (vm (r2 a) b).
Definition mid : mat3 := M3 ex ey ez.
Definition mneg (m : mat3) : mat3 := M3 (vneg (r0 m)) (vneg (r1 m)) (vneg (r2 m)).
Definition mscale (k : R) (m : mat3) : mat3 :=
  M3 (vscale k (r0 m)) (vscale k (r1 m)) (vscale k (r2 m)).
Definition madd (a b : mat3) : mat3 :=
  M3 (vadd (r0 a) (r0 b)) (vadd (r1 a) (r1 b)) (vadd (r2 a) (r2 b)).
Definition mdiag (v : vec3) : mat3 := M3 (V3 (vx v) 0 0) (V3 0 (vy v) 0) (V3 0 0 (vz v)).
Definition mdet (m : mat3) : R := dot (r0 m) (cross (r1 m) (r2 m)).
Definition diagonal (m : mat3) : vec3 := V3 (vx (r0 m)) (vy (r1 m)) (vz (r2 m)).

Ltac munf := unfold mm, mv, vm, mT, mid, mneg, mscale, madd, mdiag, mdet, diagonal in *; vunf.

(** Rows are orthonormal. *)
Definition orthonormal (m : mat3) : Prop :=
  dot (r0 m) (r0 m) = 1 /\ dot (r1 m) (r1 m) = 1 /\ dot (r2 m) (r2 m) = 1 /\
  dot (r0 m) (r1 m) = 0 /\ dot (r0 m) (r2 m) = 0 /\ dot (r1 m) (r2 m) = 0.

Definition unit3 (v : vec3) : Prop := nrm2 v = 1.

Lemma dot_comm : forall a b, dot a b = dot b a.
Proof. vring. Qed.
Lemma dot_add_l : forall a b c, dot (vadd a b) c = dot a c + dot b c.
Proof. vring. Qed.
Lemma dot_add_r : forall a b c, dot a (vadd b c) = dot a b + dot a c.
Proof. vring. Qed.
Lemma dot_sub_l : forall a b c, dot (vsub a b) c = dot a c - dot b c.
Proof. vring. Qed.
Lemma dot_sub_r : forall a b c, dot a (vsub b c) = dot a b - dot a c.
Proof. vring. Qed.
Lemma dot_scale_l : forall k a b, dot (vscale k a) b = k * dot a b.
Proof. vring. Qed.
Lemma dot_scale_r : forall k a b, dot a (vscale k b) = k * dot a b.
Proof. vring. Qed.
Lemma dot_neg_l : forall a b, dot (vneg a) b = - dot a b.
Proof. vring. Qed.
Lemma dot_neg_r : forall a b, dot a (vneg b) = - dot a b.
Proof. vring. Qed.
Lemma dot_zero_l : forall a, dot vzero a = 0.
Proof. vring. Qed.
Lemma dot_zero_r : forall a, dot a vzero = 0.
Proof. vring. Qed.

Lemma nrm2_nonneg : forall v, 0 <= nrm2 v.
Proof. intros [x y z]; vunf; nra. Qed.
Lemma nrm2_zero : forall v, nrm2 v = 0 -> v = vzero.
Proof.
  intros [x y z] H; vunf. apply vec3_eq; simpl; nra.
Qed.
Lemma nrm2_pos : forall v, v <> vzero -> 0 < nrm2 v.
Proof.
  intros v H. destruct (Rle_lt_or_eq_dec _ _ (nrm2_nonneg v)) as [h|h]; auto.
  exfalso; apply H; apply nrm2_zero; auto.
Qed.
Lemma norm_nonneg : forall v, 0 <= norm v.
Proof. intros; apply sqrt_pos. Qed.
Lemma norm_sqr : forall v, norm v * norm v = nrm2 v.
Proof. intros; unfold norm; apply sqrt_sqrt; apply nrm2_nonneg. Qed.
Lemma norm_unit : forall v, unit3 v -> norm v = 1.
Proof. unfold unit3, norm; intros v H; rewrite H; apply sqrt_1. Qed.
Lemma nrm2_scale : forall k v, nrm2 (vscale k v) = k * k * nrm2 v.
Proof. vring. Qed.
Lemma nrm2_neg : forall v, nrm2 (vneg v) = nrm2 v.
Proof. vring. Qed.
Lemma norm_zero_iff : forall v, norm v = 0 <-> v = vzero.
Proof.
  intros; split; intros H.
  - apply nrm2_zero. rewrite <- norm_sqr, H; ring.
  - subst; unfold norm. replace (nrm2 vzero) with 0 by (vunf; ring). apply sqrt_0.
Qed.
Lemma vneg_invol : forall v, vneg (vneg v) = v.
Proof. vring. Qed.
Lemma norm_neg : forall v, norm (vneg v) = norm v.
Proof. intros; unfold norm; rewrite nrm2_neg; reflexivity. Qed.
Lemma norm_scale : forall k v, norm (vscale k v) = Rabs k * norm v.
Proof.
  intros; unfold norm. rewrite nrm2_scale, sqrt_mult_alt by nra.
  f_equal. rewrite <- sqrt_Rsqr_abs. reflexivity.
Qed.

(** Lagrange identity *)
Lemma nrm2_cross : forall a b, nrm2 (cross a b) = nrm2 a * nrm2 b - dot a b * dot a b.
Proof. vring. Qed.
Lemma cauchy_schwarz : forall a b, dot a b * dot a b <= nrm2 a * nrm2 b.
Proof.
  intros. pose proof (nrm2_nonneg (cross a b)). rewrite nrm2_cross in H. lra.
Qed.
Lemma dot_cross_l : forall a b, dot (cross a b) a = 0.
Proof. vring. Qed.
Lemma dot_cross_r : forall a b, dot (cross a b) b = 0.
Proof. vring. Qed.

Lemma mT_invol : forall m, mT (mT m) = m.
Proof. intros [[] [] []]; reflexivity. Qed.
Lemma mneg_invol : forall m, mneg (mneg m) = m.
Proof. intros [[] [] []]; unfold mneg; simpl; rewrite !vneg_invol; reflexivity. Qed.

(** ** Orthonormal matrices *)

Lemma gram_det : forall m, mdet m * mdet m =
  mdet (M3 (V3 (dot (r0 m) (r0 m)) (dot (r0 m) (r1 m)) (dot (r0 m) (r2 m)))
           (V3 (dot (r0 m) (r1 m)) (dot (r1 m) (r1 m)) (dot (r1 m) (r2 m)))
           (V3 (dot (r0 m) (r2 m)) (dot (r1 m) (r2 m)) (dot (r2 m) (r2 m)))).
Proof. intros [[] [] []]; munf; ring. Qed.

Lemma orthonormal_det : forall m, orthonormal m -> mdet m * mdet m = 1.
Proof.
  intros m (h00 & h11 & h22 & h01 & h02 & h12).
  rewrite gram_det, h00, h11, h22, h01, h02, h12. munf; ring.
Qed.

(** A vector is determined by its products with the three rows. *)
Lemma det_dot_zero : forall m w, mdet m <> 0 ->
  dot (r0 m) w = 0 -> dot (r1 m) w = 0 -> dot (r2 m) w = 0 -> w = vzero.
Proof.
  intros m w Hd H0 H1 H2.
  assert (E : vscale (mdet m) w =
     vadd (vscale (dot (r0 m) w) (cross (r1 m) (r2 m)))
     (vadd (vscale (dot (r1 m) w) (cross (r2 m) (r0 m)))
           (vscale (dot (r2 m) w) (cross (r0 m) (r1 m))))).
  { destruct m as [[] [] []], w; apply vec3_eq; munf; ring. }
  rewrite H0, H1, H2 in E.
  assert (E' : vscale (mdet m) w = vzero) by (rewrite E; vring).
  destruct w as [a b c]. unfold vscale, vzero in E'; simpl in E'.
  injection E' as Ea Eb Ec.
  apply vec3_eq; simpl; eapply Rmult_eq_reg_l; try eassumption; lra.
Qed.

Lemma orthonormal_det_nz : forall m, orthonormal m -> mdet m <> 0.
Proof. intros m H E; pose proof (orthonormal_det m H); rewrite E in *; lra. Qed.

Lemma orthonormal_expand : forall m v, orthonormal m -> vm (mv m v) m = v.
Proof.
  intros m v H.
  assert (vsub v (vm (mv m v) m) = vzero).
  { apply det_dot_zero with m. { now apply orthonormal_det_nz. }
    all: destruct H as (h00 & h11 & h22 & h01 & h02 & h12);
      rewrite dot_sub_r; unfold vm, mv; simpl;
      rewrite !dot_add_r, !dot_scale_r.
    - rewrite h00, h01, h02; ring.
    - rewrite (dot_comm (r1 m) (r0 m)), h01, h11, h12; ring.
    - rewrite (dot_comm (r2 m) (r0 m)), (dot_comm (r2 m) (r1 m)), h02, h12, h22; ring. }
  destruct v, (vm _ _) as [a b c]; unfold vsub, vzero in H0; simpl in H0.
  injection H0 as E1 E2 E3. apply vec3_eq; simpl; lra.
Qed.

Lemma mv_vm : forall m v, orthonormal m -> mv m (vm v m) = v.
Proof.
  intros m v (h00 & h11 & h22 & h01 & h02 & h12).
  apply vec3_eq; unfold mv, vm; simpl; rewrite !dot_add_r, !dot_scale_r.
  - rewrite h00, h01, h02; ring.
  - rewrite (dot_comm (r1 m) (r0 m)), h01, h11, h12; ring.
  - rewrite (dot_comm (r2 m) (r0 m)), (dot_comm (r2 m) (r1 m)), h02, h12, h22; ring.
Qed.

Lemma mv_mT : forall m v, mv (mT m) v = vm v m.
Proof. intros [[] [] []] []; apply vec3_eq; munf; ring. Qed.
Lemma vm_mT : forall m v, vm v (mT m) = mv m v.
Proof. intros [[] [] []] []; apply vec3_eq; munf; ring. Qed.
Lemma dot_mv_vm : forall m a b, dot (mv m a) b = dot a (vm b m).
Proof. intros [[] [] []] [] []; munf; ring. Qed.

Lemma dot_mv_mv : forall m a b, orthonormal m -> dot (mv m a) (mv m b) = dot a b.
Proof. intros. rewrite dot_mv_vm, orthonormal_expand; auto. Qed.
Lemma dot_vm_vm : forall m a b, orthonormal m -> dot (vm a m) (vm b m) = dot a b.
Proof. intros. rewrite <- dot_mv_vm, mv_vm; auto. Qed.

(** Parseval: components along the rows carry the whole squared norm. *)
Lemma parseval : forall m v, orthonormal m ->
  dot (r0 m) v * dot (r0 m) v + dot (r1 m) v * dot (r1 m) v + dot (r2 m) v * dot (r2 m) v
  = nrm2 v.
Proof.
  intros m v H. unfold nrm2. rewrite <- (dot_mv_mv m v v H). unfold mv, dot at 7; simpl. ring.
Qed.

Lemma orthonormal_T : forall m, orthonormal m -> orthonormal (mT m).
Proof.
  intros m H.
  assert (E : forall a b, dot (vm a (mT m)) (vm b (mT m)) = dot a b).
  { intros. rewrite !vm_mT. now apply dot_mv_mv. }
  assert (X : vm ex (mT m) = r0 (mT m)) by (destruct m as [[] [] []]; munf; f_equal; ring).
  assert (Y : vm ey (mT m) = r1 (mT m)) by (destruct m as [[] [] []]; munf; f_equal; ring).
  assert (Z : vm ez (mT m) = r2 (mT m)) by (destruct m as [[] [] []]; munf; f_equal; ring).
  unfold orthonormal. rewrite <- X, <- Y, <- Z, !E. vunf; repeat split; ring.
Qed.

Lemma orthonormal_neg : forall m, orthonormal m -> orthonormal (mneg m).
Proof.
  intros m (h00 & h11 & h22 & h01 & h02 & h12).
  unfold orthonormal, mneg; simpl. rewrite !dot_neg_l, !dot_neg_r. repeat split; lra.
Qed.

Lemma orthonormal_id : orthonormal mid.
Proof. unfold orthonormal, mid; simpl; vunf; repeat split; ring. Qed.

Lemma orthonormal_unit2 : forall m, orthonormal m -> unit3 (r2 m).
Proof. intros m (_ & _ & h & _); exact h. Qed.

(** * Finite sums *)
Fixpoint sumf {A} (f : A -> R) (l : list A) : R :=
  match l with [] => 0 | a :: l' => f a + sumf f l' end.

Lemma sumf_ext : forall A (f g : A -> R) l, (forall a, In a l -> f a = g a) -> sumf f l = sumf g l.
Proof.
  induction l; simpl; intros H; auto. rewrite H by auto. rewrite IHl; auto.
Qed.
Lemma sumf_plus : forall A (f g : A -> R) l, sumf (fun a => f a + g a) l = sumf f l + sumf g l.
Proof. induction l; simpl; try rewrite IHl; ring. Qed.
Lemma sumf_minus : forall A (f g : A -> R) l, sumf (fun a => f a - g a) l = sumf f l - sumf g l.
Proof. induction l; simpl; try rewrite IHl; ring. Qed.
Lemma sumf_scal : forall A k (f : A -> R) l, sumf (fun a => k * f a) l = k * sumf f l.
Proof. induction l; simpl; try rewrite IHl; ring. Qed.
Lemma sumf_scal_r : forall A k (f : A -> R) l, sumf (fun a => f a * k) l = sumf f l * k.
Proof. induction l; simpl; try rewrite IHl; ring. Qed.
Lemma sumf_const : forall A k (l : list A), sumf (fun _ => k) l = INR (length l) * k.
Proof.
  induction l; [simpl; ring|]. change (length (a :: l)) with (S (length l)).
  rewrite S_INR. simpl. rewrite IHl. ring.
Qed.
Lemma sumf_app : forall A (f : A -> R) l m, sumf f (l ++ m) = sumf f l + sumf f m.
Proof. induction l; simpl; intros; try rewrite IHl; ring. Qed.
Lemma sumf_map : forall A B (f : B -> R) (g : A -> B) l, sumf f (map g l) = sumf (fun a => f (g a)) l.
Proof. induction l; simpl; try rewrite IHl; auto. Qed.
Lemma sumf_nonneg : forall A (f : A -> R) l, (forall a, In a l -> 0 <= f a) -> 0 <= sumf f l.
Proof.
  induction l; simpl; intros H. { lra. }
  pose proof (H a (or_introl eq_refl)). assert (0 <= sumf f l) by (apply IHl; auto). lra.
Qed.
Lemma sumf_le : forall A (f g : A -> R) l, (forall a, In a l -> f a <= g a) -> sumf f l <= sumf g l.
Proof.
  induction l; simpl; intros H. { lra. }
  pose proof (H a (or_introl eq_refl)). assert (sumf f l <= sumf g l) by (apply IHl; auto). lra.
Qed.
Lemma sumf_zero_all : forall A (f : A -> R) l, (forall a, In a l -> 0 <= f a) ->
  sumf f l = 0 -> forall a, In a l -> f a = 0.
Proof.
  induction l; simpl; intros Hn Hs a0 Hin. { contradiction. }
  assert (0 <= f a) by auto. assert (0 <= sumf f l) by (apply sumf_nonneg; auto).
  destruct Hin as [<-|Hin]. { lra. } apply IHl; auto. lra.
Qed.
Lemma sumf_perm : forall A (f : A -> R) l m, Permutation l m -> sumf f l = sumf f m.
Proof. induction 1; simpl; lra. Qed.
Lemma sumf_concat : forall A (f : A -> R) ls, sumf f (concat ls) = sumf (sumf f) ls.
Proof. induction ls; simpl; auto. rewrite sumf_app, IHls; auto. Qed.

Definition vsum (l : list vec3) : vec3 := V3 (sumf vx l) (sumf vy l) (sumf vz l).

Lemma dot_vsum : forall d l, sumf (fun p => dot p d) l = dot (vsum l) d.
Proof.
  intros d l; unfold dot, vsum; simpl. rewrite !sumf_plus, !sumf_scal_r. reflexivity.
Qed.
