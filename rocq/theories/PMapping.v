(** Properties C41, C53, C94, C95: the exported mapping of a plane. *)
From Coq Require Import Reals Lra List String Arith Lia Bool.
From Verif Require Import RVec Trig SpecPlane MPca LSvd LPca LFit2 LExamples MAxes MSphere MRecon LRecon
  MGroup LGroup LGroup2 LGroup3 MMapping PGroup PGroup2.
Import ListNotations.
Open Scope string_scope.

(** ** Python dicts *)
Definition keys (d : dict) : list string := map fst d.
Lemma lookup_assign : forall k v d j, lookup j (assign k v d) = if String.eqb j k then Some v else lookup j d.
Proof.
  induction d as [|(k', v') d IH]; intros j; simpl.
  - reflexivity.
  - destruct (String.eqb_spec k k') as [->|N]; simpl.
    + destruct (String.eqb_spec j k'); auto.
    + rewrite IH. destruct (String.eqb_spec j k') as [->|]; auto.
      destruct (String.eqb_spec k' k); congruence.
Qed.
Lemma keys_assign : forall k v d j, In j (keys (assign k v d)) <-> j = k \/ In j (keys d).
Proof.
  induction d as [|(k', v') d IH]; intros j; simpl.
  - intuition.
  - destruct (String.eqb_spec k k') as [->|N]; simpl.
    + intuition.
    + unfold keys in IH. rewrite IH. intuition.
Qed.
Lemma nodup_assign : forall k v d, NoDup (keys d) -> NoDup (keys (assign k v d)).
Proof.
  induction d as [|(k', v') d IH]; intros H; simpl in *.
  - repeat constructor; auto.
  - destruct (String.eqb_spec k k') as [->|N]; simpl; auto.
    inversion H; subst. constructor; auto. intros I. apply (keys_assign k v d k') in I. destruct I; [congruence | tauto].
Qed.
Lemma lookup_none : forall k d, lookup k d = None <-> ~ In k (keys d).
Proof.
  induction d as [|(k', v') d IH]; simpl; [tauto|]. destruct (String.eqb_spec k k') as [->|N].
  - split; [discriminate | tauto].
  - rewrite IH. intuition.
Qed.
Lemma lookup_setdefault : forall k v d j, lookup j (setdefault k v d) =
  match lookup j d with Some x => Some x | None => if String.eqb j k then Some v else None end.
Proof.
  intros. unfold setdefault. destruct (lookup k d) as [x|] eqn:E.
  - destruct (lookup j d) eqn:F; auto. destruct (String.eqb_spec j k); congruence.
  - rewrite lookup_assign. destruct (String.eqb_spec j k) as [->|]; [now rewrite E|]. now destruct (lookup j d).
Qed.
Lemma nodup_setdefault : forall k v d, NoDup (keys d) -> NoDup (keys (setdefault k v d)).
Proof. intros. unfold setdefault. destruct (lookup k d); auto. now apply nodup_assign. Qed.
Lemma lookup_overwrite : forall values m j, NoDup (keys values) ->
  lookup j (overwrite m values) = match lookup j values with Some v => Some v | None => lookup j m end.
Proof.
  unfold overwrite. induction values as [|(k, v) values IH]; intros m j H; simpl; auto.
  inversion H; subst. rewrite IH by auto. rewrite lookup_assign.
  destruct (String.eqb_spec j k) as [->|N].
  - assert (lookup k values = None) as -> by (now apply lookup_none). reflexivity.
  - reflexivity.
Qed.
Lemma nodup_overwrite : forall values m, NoDup (keys m) -> NoDup (keys (overwrite m values)).
Proof.
  unfold overwrite. induction values as [|(k, v) values IH]; intros m H; simpl; auto. apply IH. now apply nodup_assign.
Qed.

Definition computed_keys : list string := ["uid"; "axes"; "hyperbolic_axes"; "max_angular_error"; "min_angular_error";
  "strike"; "dip"; "rake"; "disabled"].
Lemma base_ok : forall u ax hyp s d r errs dis values m, NoDup (keys values) ->
  base_mapping u ax hyp s d r errs dis values = Ok m ->
  NoDup (keys m) /\
  (forall k, lookup k m = match lookup k values with
     | Some v => Some v
     | None =>
        if String.eqb k "uid" then Some (VUid u) else if String.eqb k "axes" then Some (VRows (rows ax))
        else if String.eqb k "hyperbolic_axes" then Some (VFloats hyp)
        else if String.eqb k "max_angular_error" then Some (VFloat (option_map (fun l => nth 1 l 0%R) errs))
        else if String.eqb k "min_angular_error" then Some (VFloat (option_map (fun l => nth 0 l 0%R) errs))
        else if String.eqb k "strike" then Some (VFloat s) else if String.eqb k "dip" then Some (VFloat d)
        else if String.eqb k "rake" then Some (VFloat r) else if String.eqb k "disabled" then Some (VBool dis)
        else None
     end) /\ (forall l, errs = Some l -> List.length l = 2).
Proof.
  intros u ax hyp s d r errs dis values m ND H. unfold base_mapping in H.
  destruct (match errs with None => _ | Some _ => _ end) as [(mn, mx)|e|] eqn:E; simpl in H; try discriminate.
  injection H as <-. split; [apply nodup_overwrite; simpl; repeat constructor; simpl; intuition discriminate|].
  assert (X : mn = option_map (fun l => nth 0 l 0%R) errs /\ mx = option_map (fun l => nth 1 l 0%R) errs /\
    forall l, errs = Some l -> List.length l = 2).
  { destruct errs as [[|a [|b [|c l]]]|]; try discriminate; injection E as <- <-; simpl; (split; [reflexivity|]; split; [reflexivity|]); intros l0 El; try discriminate; injection El as <-; reflexivity. }
  destruct X as (-> & -> & L). split; auto. intros k. rewrite lookup_overwrite by auto. destruct (lookup k values); auto.
Qed.

(** ** C41 *)
Theorem C41_reports_arguments : forall strike dip rake errors ne p sha,
  ReconstructedPlane strike dip rake errors ne = Some p ->
  rp_strike_dip_rake p = (strike, dip, rake) /\ rp_angular_errors p = errors /\
  (forall e0 e1, errors = [e0; e1] -> exists m, recon_mapping sha p [] = Ok m /\
    lookup "strike" m = Some (VFloat (Some strike)) /\ lookup "dip" m = Some (VFloat (Some dip)) /\
    lookup "rake" m = Some (VFloat (Some rake)) /\
    lookup "min_angular_error" m = Some (VFloat (Some e0)) /\
    lookup "max_angular_error" m = Some (VFloat (Some e1)) /\
    lookup "disabled" m = Some (VBool false)) /\
  (List.length errors <> 2 -> forall values, recon_mapping sha p values = Raise ValueError).
Proof.
  intros strike dip rake errors ne p sha H. unfold ReconstructedPlane in H.
  destruct (pole strike dip) as [pl|]; simpl in H; [|discriminate].
  destruct (rake_line strike dip rake) as [ll|]; simpl in H; [|discriminate].
  injection H as <-. split; [reflexivity|]. split; [reflexivity|]. split.
  - intros e0 e1 ->. eexists. split; [reflexivity|]. repeat split; reflexivity.
  - intros L values. unfold recon_mapping, base_mapping, rp_angular_errors. simpl.
    destruct errors as [|a [|b [|c l]]]; simpl in *; try reflexivity. lia.
Qed.
Example C41_ex : exists p, ReconstructedPlane 30 40 50 [3; 8]%R 1 = Some p.
Proof.
  unfold ReconstructedPlane. destruct (pole_spec 30 40) as (p & -> & _). simpl.
  destruct (rake_spec 30 40 50) as (q & -> & _). simpl. eauto.
Qed.

(** ** C53 *)
Section Mapping.
Variables (st : stats) (sha : mat3 -> nat) (h : heap).
Definition plain_default (o : obj) (k : string) : option value :=
  let f := o_fit o in
  if String.eqb k "uid" then Some (VUid (uid sha f))
  else if String.eqb k "axes" then Some (VRows (rows (p_axes f)))
  else if String.eqb k "hyperbolic_axes" then Some (VFloats (option_map row (hyperbolic_axes st f)))
  else if String.eqb k "max_angular_error" then Some (VFloat (option_map snd (fit_angular_errors st f)))
  else if String.eqb k "min_angular_error" then Some (VFloat (option_map fst (fit_angular_errors st f)))
  else if String.eqb k "strike" then Some (VFloat (option_map fst (strike_dip f)))
  else if String.eqb k "dip" then Some (VFloat (option_map snd (strike_dip f)))
  else if String.eqb k "rake" then Some (VFloat (rake f))
  else if String.eqb k "disabled" then Some (VBool (o_disabled o))
  else if String.eqb k "center" then Some (VFloats (option_map row (p_mean f)))
  else if String.eqb k "centered_array" then
    Some (match o_members o with None => VRows (map row (p_arr f)) | Some _ => VNone end)
  else None.
Lemma pca_ok : forall o values m, NoDup (keys values) -> pca_mapping st sha h o values = Ok m ->
  NoDup (keys m) /\ (forall g, o_parent o = Some g -> exists p, get h g = Some p /\ lookup "member_of" m = Some (VUid (uid sha (o_fit p)))) /\
  (forall k, o_parent o = None \/ k <> "member_of" ->
    lookup k m = match lookup k values with Some v => Some v | None =>
      if String.eqb k "centered_array" then Some (VRows (map row (p_arr (o_fit o)))) else plain_default o k end).
Proof.
  intros o values m ND H. unfold pca_mapping in H.
  set (vs := setdefault "center" _ _) in H.
  assert (NDs : NoDup (keys vs)) by (apply nodup_setdefault, nodup_setdefault, ND).
  assert (Lk : forall k, lookup k vs = match lookup k values with Some v => Some v | None =>
    if String.eqb k "centered_array" then Some (VRows (map row (p_arr (o_fit o))))
    else if String.eqb k "center" then Some (VFloats (option_map row (p_mean (o_fit o)))) else None end).
  { intros k. unfold vs. rewrite !lookup_setdefault. destruct (lookup k values); auto.
    destruct (String.eqb_spec k "centered_array") as [->|]; auto. }
  assert (E : forall k, (match lookup k vs with Some v => Some v | None =>
        if String.eqb k "uid" then Some (VUid (obj_uid sha o)) else if String.eqb k "axes" then Some (VRows (rows (p_axes (o_fit o))))
        else if String.eqb k "hyperbolic_axes" then Some (VFloats (option_map row (hyperbolic_axes st (o_fit o))))
        else if String.eqb k "max_angular_error" then Some (VFloat (option_map (fun l => nth 1 l 0%R)
           (option_map (fun '(a, b) => [a; b]) (fit_angular_errors st (o_fit o)))))
        else if String.eqb k "min_angular_error" then Some (VFloat (option_map (fun l => nth 0 l 0%R)
           (option_map (fun '(a, b) => [a; b]) (fit_angular_errors st (o_fit o)))))
        else if String.eqb k "strike" then Some (VFloat (option_map fst (strike_dip (o_fit o))))
        else if String.eqb k "dip" then Some (VFloat (option_map snd (strike_dip (o_fit o))))
        else if String.eqb k "rake" then Some (VFloat (rake (o_fit o))) else if String.eqb k "disabled" then Some (VBool (o_disabled o))
        else None end) = match lookup k values with Some v => Some v | None =>
      if String.eqb k "centered_array" then Some (VRows (map row (p_arr (o_fit o)))) else plain_default o k end).
  { intros k. rewrite Lk. destruct (lookup k values); auto.
    destruct (String.eqb_spec k "centered_array") as [->|Nc]; auto.
    destruct (String.eqb_spec k "center") as [->|Nc']; auto. unfold plain_default.
    repeat match goal with |- context [String.eqb k ?s] => destruct (String.eqb_spec k s); auto; try congruence end.
    all: destruct (fit_angular_errors st (o_fit o)) as [[]|]; auto. }
  destruct (o_parent o) as [g|] eqn:P; simpl in H.
  - destruct (get h g) as [p|] eqn:G; simpl in H; [|discriminate].
    apply base_ok in H; [|now apply nodup_assign]. destruct H as (A & B & _). split; auto. split.
    + intros g' E'. injection E' as <-. exists p. split; auto. now rewrite B, lookup_assign.
    + intros k [Q|Q]; [discriminate|]. rewrite B, lookup_assign.
      apply String.eqb_neq in Q. rewrite Q. apply E.
  - apply base_ok in H; auto. destruct H as (A & B & _). split; auto. split; [discriminate|].
    intros k _. rewrite B. apply E.
Qed.
Lemma member_uids_ok : forall ms us, member_uids sha h ms = Ok us -> map Some us = map (uid_of sha h) ms.
Proof.
  induction ms as [|m ms IH]; intros us H; simpl in H.
  - injection H as <-. reflexivity.
  - simpl. unfold uid_of at 1. destruct (get h m) as [o|]; [|discriminate].
    destruct (member_uids sha h ms) as [us'|e|]; simpl in H; try discriminate. injection H as <-.
    simpl. now rewrite (IH us').
Qed.

(** every entry of the mapping of an orientation or group *)
Theorem C53_precedence : forall a o values m, get h a = Some o -> NoDup (keys values) ->
  to_mapping st sha h a values = Ok m ->
  NoDup (keys m) /\
  (forall g, o_parent o = Some g -> exists u, uid_of sha h g = Some u /\ lookup "member_of" m = Some (VUid u)) /\
  (forall ms, o_members o = Some ms -> exists us, map Some us = map (uid_of sha h) ms /\ lookup "members" m = Some (VUids us)) /\
  (forall k, (o_parent o = None \/ k <> "member_of") -> (o_members o = None \/ k <> "members") ->
    (forall v, lookup k values = Some v -> lookup k m = Some v) /\
    (lookup k values = None -> lookup k m = plain_default o k)).
Proof.
  intros a o values m G ND H. unfold to_mapping in H. rewrite G in H.
  assert (U : forall g p, get h g = Some p -> uid_of sha h g = Some (uid sha (o_fit p))) by (intros g p Gp; unfold uid_of; now rewrite Gp).
  destruct (o_members o) as [ms|] eqn:M.
  - destruct (member_uids sha h ms) as [us|e|] eqn:MU; simpl in H; try discriminate.
    assert (NDs : NoDup (keys (assign "members" (VUids us) (setdefault "centered_array" VNone values))))
      by (apply nodup_assign, nodup_setdefault, ND).
    destruct (pca_ok _ _ _ NDs H) as (A & B & C). split; auto. split; [|split].
    + intros g P. destruct (B g P) as (p & Gp & L). eauto.
    + intros ms' E. injection E as <-. exists us. split; [now apply member_uids_ok|].
      rewrite C by (right; discriminate). rewrite lookup_assign. reflexivity.
    + intros k K1 [Q|K2]; [discriminate|]. rewrite C by auto. rewrite lookup_assign, lookup_setdefault.
      apply String.eqb_neq in K2. rewrite K2. split.
      * intros v ->. reflexivity.
      * intros ->. destruct (String.eqb_spec k "centered_array") as [->|N]; auto.
        unfold plain_default. simpl. now rewrite M.
  - destruct (pca_ok _ _ _ ND H) as (A & B & C). split; auto. split; [|split].
    + intros g P. destruct (B g P) as (p & Gp & L). eauto.
    + discriminate.
    + intros k K1 _. rewrite C by auto. split.
      * intros v ->. reflexivity.
      * intros ->. destruct (String.eqb_spec k "centered_array") as [->|N]; auto.
        unfold plain_default. simpl. now rewrite M.
Qed.

(** ** C94: when exporting fails *)
Lemma base_total : forall u ax hyp s d r o dis values, exists m,
  base_mapping u ax hyp s d r (option_map (fun '(a, b) => [a; b]) o) dis values = Ok m.
Proof. intros. unfold base_mapping. destruct o as [[a b]|]; simpl; eauto. Qed.
Lemma member_uids_total : forall ms, (forall m, In m ms -> is_live h m) -> exists us, member_uids sha h ms = Ok us.
Proof.
  induction ms as [|m ms IH]; intros H; simpl; eauto. destruct (H m) as [o G]; [now left|]. rewrite G.
  destruct IH as [us E]; [intros; apply H; now right|]. rewrite E. simpl. eauto.
Qed.
Theorem C94_export_fails_iff : forall a o values, reach h -> get h a = Some o ->
  (exists m, to_mapping st sha h a values = Ok m /\
     forall g, o_parent o = Some g -> is_live h g) \/
  (to_mapping st sha h a values = Raise AttributeError /\
     exists g ms, o_parent o = Some g /\ nth_error h g = Some (Partial ms)).
Proof.
  intros a o values R G. apply reach_wf in R.
  assert (K : forall vs, (exists m, pca_mapping st sha h o vs = Ok m /\ forall g, o_parent o = Some g -> is_live h g) \/
    (pca_mapping st sha h o vs = Raise AttributeError /\ exists g ms, o_parent o = Some g /\ nth_error h g = Some (Partial ms))).
  { intros vs. unfold pca_mapping. destruct (o_parent o) as [g|] eqn:P.
    - assert (Pa : parent_of h a = Some g) by (unfold parent_of; now rewrite G).
      destruct (wf_parent h R a g Pa) as (c & N & C). unfold get.  rewrite N. destruct c as [p|ms].
      + left. simpl. destruct (base_total (obj_uid sha o) (p_axes (o_fit o)) (option_map row (hyperbolic_axes st (o_fit o)))
          (option_map fst (strike_dip (o_fit o))) (option_map snd (strike_dip (o_fit o))) (rake (o_fit o))
          (fit_angular_errors st (o_fit o)) (o_disabled o)
          (assign "member_of" (VUid (obj_uid sha p)) (setdefault "center" (VFloats (option_map row (center (o_fit o))))
             (setdefault "centered_array" (VRows (map row (centered_array (o_fit o)))) vs)))) as [m E].
        exists m. split; auto. intros g' E'. injection E' as <-. exists p. unfold get. now rewrite N.
      + right. split; [reflexivity|]. eauto.
    - left. simpl. match goal with |- context [base_mapping ?a ?b ?c ?d ?e ?f' (option_map _ ?g') ?h' ?i'] =>
        destruct (base_total a b c d e f' g' h' i') as [m E] end. exists m. split; auto. discriminate. }
  unfold to_mapping. rewrite G. destruct (o_members o) as [ms|] eqn:M; auto.
  destruct (member_uids_total ms) as [us E].
  { intros m I. apply (wf_members h R a ms m); auto. unfold members_of. now rewrite G. }
  rewrite E. simpl. apply K.
Qed.
End Mapping.
(** exporting an orientation that a failed grouping left re-parented raises *)
Theorem C94_after_failed_group : forall svd same w h a1 k a2 h' e st sha a values, all_live h (a1 ++ k :: a2) ->
  (forall b, In b a1 -> members_of h b = None) -> members_of h k <> None ->
  GroupedOrientation svd same w h (a1 ++ k :: a2) = (h', Raise e) -> In a a1 ->
  to_mapping st sha h' a values = Raise AttributeError.
Proof.
  intros svd same w h a1 k a2 h' e st sha a values HL N K G I.
  destruct (C50_failed_group svd same w h a1 k a2 HL N K) as (h2 & E & _ & P & C & _).
  rewrite G in E. injection E as <- _.
  assert (La : is_live h a).
  { unfold all_live in HL. rewrite Forall_forall in HL. apply HL, in_app_iff. auto. }
  destruct La as [o Go]. pose proof (C a o I Go) as G'. unfold to_mapping. rewrite G'. simpl.
  assert (M : o_members o = None) by (specialize (N a I); unfold members_of in N; now rewrite Go in N).
  rewrite M. unfold pca_mapping, get. simpl. now rewrite P.
Qed.

(** ** C95: references between the exported planes are closed *)
Theorem C95_references_closed : forall svd st sha copy same w h os groups h' l x m u, reach h -> all_live h os ->
  create_groups svd sha copy same w h os groups = (h', l, Ok tt) -> disjoint_requests groups ->
  In x l -> to_mapping st sha h' x [] = Ok m -> lookup "member_of" m = Some u ->
  exists g mg us ux, In g l /\ to_mapping st sha h' g [] = Ok mg /\ lookup "uid" mg = Some u /\
    lookup "members" mg = Some (VUids us) /\ lookup "uid" m = Some (VUid ux) /\ In ux us.
Proof.
  intros svd st sha copy same w h os groups h' l x m u R HL H D Ix T U.
  assert (R' : reach h') by (eapply reach_create; eauto).
  destruct (C45_links _ _ _ _ _ _ _ _ _ _ HL H D) as (_ & L2).
  destruct (create_frame _ _ _ _ _ _ _ _ _ _ _ HL H) as (_ & LL & _).
  unfold all_live in LL. rewrite Forall_forall in LL. destruct (LL x Ix) as [o G].
  destruct (C53_precedence st sha h' x o [] m G (NoDup_nil _) T) as (_ & A & _ & C).
  destruct (o_parent o) as [g|] eqn:P.
  2:{ destruct (C "member_of") as [_ C2]; [auto | right; discriminate |]. rewrite C2 in U by reflexivity. discriminate. }
  destruct (A g eq_refl) as (v & Ug & Ev). rewrite Ev in U. injection U as <-.
  destruct (L2 x g Ix) as (Ig & ms & M & Im); [unfold parent_of; now rewrite G|].
  destruct (LL g Ig) as [og Gg].
  destruct (C94_export_fails_iff st sha h' g og [] R' Gg) as [(mg & Tg & _)|(_ & g2 & ms2 & P2 & N2)].
  2:{ exfalso. destruct (L2 g g2 Ig) as (I2 & _); [unfold parent_of; now rewrite Gg|].
      destruct (LL g2 I2) as [o2 G2]. unfold get in G2. rewrite N2 in G2. discriminate. }
  destruct (C53_precedence st sha h' g og [] mg Gg (NoDup_nil _) Tg) as (_ & _ & B & Cg).
  assert (Mg : o_members og = Some ms) by (unfold members_of in M; now rewrite Gg in M).
  destruct (B ms Mg) as (us & Eus & Lus).
  exists g, mg, us, (uid sha (o_fit o)). split; auto. split; auto.
  split; [|split; auto; split].
  - destruct (Cg "uid") as [_ C2]; [right; discriminate | right; discriminate |]. rewrite C2 by reflexivity.
    unfold plain_default. simpl. unfold uid_of in Ug. rewrite Gg in Ug. injection Ug as <-. reflexivity.
  - destruct (C "uid") as [_ C2]; [right; discriminate | right; discriminate |]. rewrite C2 by reflexivity. reflexivity.
  - assert (Q : In (Some (uid sha (o_fit o))) (map Some us)).
    { rewrite Eus. apply in_map_iff. exists x. split; auto. unfold uid_of. now rewrite G. }
    apply in_map_iff in Q. destruct Q as (y & Ey & Iy). injection Ey as ->. exact Iy.
Qed.

Example C53_ex : forall svd st sha, lapack svd -> exists h o m, reach h /\ get h 1 = Some o /\
  o_parent o = Some 2 /\ to_mapping st sha h 1 [("name", VUser 7); ("strike", VUser 8); ("member_of", VUser 9)] = Ok m /\
  lookup "strike" m = Some (VUser 8) /\ lookup "name" m = Some (VUser 7) /\ lookup "member_of" m <> Some (VUser 9).
Proof.
  intros svd st sha HL. destruct (demo svd HL) as (f & g & F & G).
  pose proof (demo_reach1 svd sha f g F G) as R.
  exists [Live (fresh f); Live (mkObj f None (Some 2) false); Live (mkObj g (Some [1]) None false)].
  set (vs := [("name", VUser 7); ("strike", VUser 8); ("member_of", VUser 9)]).
  destruct (C94_export_fails_iff st sha _ 1 _ vs R eq_refl) as [(m & T & _)|(_ & q & ms & E & N)].
  - exists (mkObj f None (Some 2) false), m. split; [exact R|]. split; [reflexivity|]. split; [reflexivity|]. split; [exact T|].
    assert (ND : NoDup (keys vs)) by (repeat constructor; simpl; intuition discriminate).
    pose proof (fun H => C53_precedence st sha _ 1 (mkObj f None (Some 2) false) vs m H ND T) as K.
    destruct (K eq_refl) as (_ & A & _ & C).
    split; [|split].
    + apply (C "strike"); [right; discriminate | right; discriminate | reflexivity].
    + apply (C "name"); [right; discriminate | right; discriminate | reflexivity].
    + destruct (A 2 eq_refl) as (u & _ & ->). discriminate.
  - simpl in E. injection E as <-. discriminate.
Qed.
Theorem C94_unexportable_state : forall svd st sha, lapack svd -> exists h a o values, reach h /\ get h a = Some o /\
  to_mapping st sha h a values = Raise AttributeError.
Proof.
  intros svd st sha HL. destruct (C50_ex svd HL) as (h & R & L & M0 & M1).
  destruct (C50_failed_group svd false None h [0] 1 [] L) as (h' & E & _ & _ & C & _); auto.
  { intros a [<-|[]]; auto. }
  assert (R' : reach h') by (eapply reach_group; eauto).
  inversion L as [|? ? [o G] L']; subst.
  exists h', 0. do 2 eexists. split; auto. split; [apply (C 0 o); auto; now left|].
  eapply (C94_after_failed_group svd false None h [0] 1 []); eauto; [|now left]. intros b [<-|[]]; auto.
  Unshelve. exact [].
Qed.
Example C95_ex : forall svd st sha, lapack svd -> exists h groups h' l m u, reach h /\ all_live h [0] /\
  create_groups svd sha true false None h [0] groups = (h', l, Ok tt) /\ disjoint_requests groups /\
  In 1 l /\ to_mapping st sha h' 1 [] = Ok m /\ lookup "member_of" m = Some u.
Proof.
  intros svd st sha HL. destruct (demo svd HL) as (f & g & F & G).
  pose proof (demo_reach1 svd sha f g F G) as R.
  destruct (C94_export_fails_iff st sha _ 1 _ [] R eq_refl) as [(m & T & _)|(_ & q & ms & E & N)].
  - pose proof (fun H => C53_precedence st sha _ 1 (mkObj f None (Some 2) false) [] m H (NoDup_nil _) T) as K.
    destruct (K eq_refl) as (_ & A & _ & _).
    destruct (A 2 eq_refl) as (u & _ & Eu).
    do 4 eexists. exists m. eexists. split; [exact (demo_reach0 svd f F)|]. split; [apply live0|].
    split; [apply (demo_copy svd sha f g G)|]. split; [|split; [now left | split; [exact T | exact Eu]]].
    intros [|[|i]] [|[|j]] us vs v; simpl; auto; discriminate.
  - simpl in E. injection E as <-. discriminate.
Qed.

Print Assumptions C41_reports_arguments.
Print Assumptions C53_precedence.
Print Assumptions C94_export_fails_iff.
Print Assumptions C94_after_failed_group.
Print Assumptions C94_unexportable_state.
Print Assumptions C95_references_closed.
