(** C196: figures embedded in pages. *)
From Coq Require Import ZArith NArith Nnat Lia List Ascii String Bool Zify.
From Verif Require Import SpecEncode MEncode.
Import ListNotations.
Open Scope Z_scope.
Ltac Zify.zify_post_hook ::= Z.to_euclidean_division_equations.

(** * Bits *)
Lemma bits_app : forall k j n, bits (j + k) n = (bits j (n / 2 ^ Z.of_nat k) ++ bits k n)%list.
Proof.
  induction k as [|k IH]; intros j n.
  - rewrite Nat.add_0_r. simpl. rewrite Z.div_1_r, app_nil_r. reflexivity.
  - rewrite Nat.add_succ_r. cbn [bits]. rewrite IH, <- app_assoc. f_equal. f_equal.
    rewrite Nat2Z.inj_succ, Z.pow_succ_r by lia. rewrite Z.div_div by lia. reflexivity.
Qed.
Lemma bits_mod : forall k n, bits k (n mod 2 ^ Z.of_nat k) = bits k n.
Proof.
  induction k as [|k IH]; intros n; auto. cbn [bits]. 
  rewrite Nat2Z.inj_succ, Z.pow_succ_r by lia. set (p := 2 ^ Z.of_nat k) in *.
  assert (P : 0 < p) by (unfold p; lia).
  rewrite (Z.rem_mul_r n 2 p) by lia.
  replace ((n mod 2 + 2 * ((n / 2) mod p)) / 2) with ((n / 2) mod p).
  - rewrite IH. f_equal. f_equal. rewrite Z.odd_add_mul_2. symmetry. rewrite <- (Z.bit0_odd n), <- (Z.bit0_odd (n mod 2)).
    rewrite !Z.bit0_odd. rewrite Zmod_odd. destruct (Z.odd n); reflexivity.
  - rewrite (Z.mul_comm 2), Z.div_add by lia. rewrite (Z.div_small (n mod 2)); [lia|]. apply Z.mod_pos_bound. lia.
Qed.
Lemma bits_inj : forall k n m, 0 <= n < 2 ^ Z.of_nat k -> 0 <= m < 2 ^ Z.of_nat k -> bits k n = bits k m -> n = m.
Proof.
  induction k as [|k IH]; intros n m Hn Hm H. { simpl in *. lia. }
  cbn [bits] in H. apply app_inj_tail in H. destruct H as [H O].
  rewrite Nat2Z.inj_succ, Z.pow_succ_r in Hn, Hm by lia.
  apply IH in H; [|lia|lia].
  rewrite (Z.div_mod n 2), (Z.div_mod m 2), !Zmod_odd, O, H by lia. reflexivity.
Qed.
Lemma bits_length : forall k n, List.length (bits k n) = k.
Proof. induction k; intros; simpl; auto. rewrite app_length, IHk. simpl. lia. Qed.

(** * The alphabet *)
Lemma sextet_cases : forall P : Z -> Prop, (forall i, In i (map Z.of_nat (seq 0 64)) -> P i) -> forall n, 0 <= n < 64 -> P n.
Proof. intros P H n Hn. apply H. rewrite <- (Z2Nat.id n) by lia. apply in_map, in_seq. lia. Qed.
Lemma ch_letter : forall n, 0 <= n < 64 -> ch n = letter n.
Proof.
  apply sextet_cases. apply Forall_forall. 
  repeat (constructor; [reflexivity|]); constructor.
Qed.
Definition six : list Z := map Z.of_nat (seq 0 64).
Lemma six_in : forall n, 0 <= n < 64 -> In n six.
Proof. intros n H. unfold six. rewrite <- (Z2Nat.id n) by lia. apply in_map, in_seq. lia. Qed.
Lemma letter_inj : forall n m, 0 <= n < 64 -> 0 <= m < 64 -> letter n = letter m -> n = m.
Proof.
  intros n m Hn Hm E.
  assert (T : forallb (fun a => forallb (fun b => negb (Ascii.eqb (letter a) (letter b)) || (a =? b)) six) six = true) by reflexivity.
  rewrite forallb_forall in T. specialize (T n (six_in n Hn)). rewrite forallb_forall in T. specialize (T m (six_in m Hm)).
  rewrite E, Ascii.eqb_refl in T. simpl in T. now apply Z.eqb_eq.
Qed.
Lemma letter_not_pad : forall n, 0 <= n < 64 -> letter n <> "="%char.
Proof.
  intros n Hn E.
  assert (T : forallb (fun a => negb (Ascii.eqb (letter a) "="%char)) six = true) by reflexivity.
  rewrite forallb_forall in T. specialize (T n (six_in n Hn)). rewrite E in T. discriminate.
Qed.

(** ** the decoder is determined *)
Lemma sextets_unique : forall s1 s2 p1 p2,
  Forall (fun n => 0 <= n < 64) s1 -> Forall (fun n => 0 <= n < 64) s2 ->
  (map letter s1 ++ repeat "="%char p1 = map letter s2 ++ repeat "="%char p2)%list -> s1 = s2 /\ p1 = p2.
Proof.
  induction s1 as [|a s1 IH]; intros [|b s2] p1 p2 F1 F2 H; simpl in H.
  - split; auto. apply (f_equal (@List.length _)) in H. now rewrite !repeat_length in H.
  - exfalso. destruct p1; simpl in H; [discriminate|]. injection H as H _. inversion F2; subst. symmetry in H. now apply letter_not_pad in H.
  - exfalso. destruct p2; simpl in H; [discriminate|]. injection H as H _. inversion F1; subst. now apply letter_not_pad in H.
  - injection H as H H'. inversion F1; subst. inversion F2; subst. apply letter_inj in H; auto. subst b.
    destruct (IH s2 p1 p2) as [-> ->]; auto.
Qed.
Lemma bytes_unique : forall d1 d2, Forall is_byte d1 -> Forall is_byte d2 ->
  flat_map (bits 8) d1 = flat_map (bits 8) d2 -> d1 = d2.
Proof.
  induction d1 as [|a d1 IH]; intros [|b d2] F1 F2 H; auto.
  - exfalso. apply (f_equal (@List.length _)) in H. cbn [flat_map] in H. rewrite app_length, bits_length in H. simpl in H. lia.
  - exfalso. apply (f_equal (@List.length _)) in H. cbn [flat_map] in H. rewrite app_length, bits_length in H. simpl in H. lia.
  - cbn [flat_map] in H. inversion F1; subst. inversion F2; subst.
    assert (E : bits 8 a = bits 8 b).
    { apply (f_equal (firstn 8)) in H. rewrite !firstn_app, !bits_length in H. rewrite !firstn_all2 in H by (rewrite bits_length; auto).
      cbn [Nat.sub firstn] in H. now rewrite !app_nil_r in H. }
    rewrite E in H. apply app_inv_head in H. f_equal; auto. apply (bits_inj 8); auto.
Qed.
Lemma base64_unique : forall s d1 d2, base64 s d1 -> base64 s d2 -> d1 = d2.
Proof.
  intros s d1 d2 (x1 & p1 & E1 & F1 & B1 & _ & _ & H1) (x2 & p2 & E2 & F2 & B2 & _ & _ & H2).
  rewrite E1 in E2. destruct (sextets_unique _ _ _ _ F1 F2 E2) as [-> ->].
  rewrite H1 in H2. apply app_inv_tail in H2. now apply bytes_unique.
Qed.
Lemma percent_unique : forall s t1, percent s t1 -> forall t2, percent s t2 -> t1 = t2.
Proof.
  induction 1 as [|c s t N H IH|h l a b s t Ha Hb H IH]; intros t2 H2; inversion H2; subst; try congruence.
  - f_equal; auto.
  - f_equal; [congruence|auto].
Qed.

(** ** the encoder *)
Fixpoint sextets_of (l : list Z) : list Z :=
  match l with
  | a :: b :: c :: t =>
      let n := a * 65536 + b * 256 + c in
      n / 262144 :: n / 4096 mod 64 :: n / 64 mod 64 :: n mod 64 :: sextets_of t
  | [a; b] => let n := (a * 256 + b) * 4 in [n / 4096; n / 64 mod 64; n mod 64]
  | [a] => let n := a * 16 in [n / 64; n mod 64]
  | [] => []
  end.
Fixpoint pad_of (l : list Z) : nat :=
  match l with a :: b :: c :: t => pad_of t | [a; b] => 1 | [a] => 2 | [] => 0 end.
Lemma triples : forall P : list Z -> Prop, P [] -> (forall a, P [a]) -> (forall a b, P [a; b]) ->
  (forall a b c t, P t -> P (a :: b :: c :: t)) -> forall l, P l.
Proof.
  intros P H0 H1 H2 H3 l. 
  assert (G : P l /\ (forall a, P (a :: l)) /\ (forall a b, P (a :: b :: l))); [|tauto].
  induction l as [|x l (I0 & I1 & I2)]; repeat split; auto.
Qed.
Lemma b64_base64 : forall l, Forall is_byte l -> base64 (b64encode l) l.
Proof.
  intros l Hl. exists (sextets_of l), (pad_of l).
  assert (R : Forall (fun n => 0 <= n < 64) (sextets_of l)).
  { revert Hl. pattern l. apply triples; clear l.
    - constructor.
    - intros a H. inversion H; subst. unfold is_byte in *. simpl. repeat constructor; lia.
    - intros a b H. inversion H; subst. inversion H3; subst. unfold is_byte in *. cbn [sextets_of]. repeat constructor; lia.
    - intros a b c t IH H. inversion H as [|? ? Ha H']; subst. inversion H' as [|? ? Hb H'']; subst. inversion H'' as [|? ? Hc H''']; subst.
      unfold is_byte in *. cbn [sextets_of]. repeat (constructor; [lia|]). apply IH; auto. }
  split.
  { revert R. pattern l. apply triples; clear l Hl.
    - reflexivity.
    - intros a R. inversion R as [|? ? R0 R']; subst. inversion R' as [|? ? R1 _]; subst.
      cbn [sextets_of map app pad_of repeat b64encode]. cbn zeta. rewrite !ch_letter by assumption. reflexivity.
    - intros a b R. cbn [sextets_of] in R. inversion R as [|? ? R0 R']; subst. inversion R' as [|? ? R1 R'']; subst. inversion R'' as [|? ? R2 _]; subst.
      cbn [sextets_of map app pad_of repeat b64encode]. cbn zeta. rewrite !ch_letter by assumption. reflexivity.
    - intros a b c t IH R. cbn [sextets_of] in R. inversion R as [|? ? R0 R']; subst. inversion R' as [|? ? R1 R'']; subst.
      inversion R'' as [|? ? R2 R''']; subst. inversion R''' as [|? ? R3 RT]; subst.
      cbn [sextets_of map app pad_of b64encode]. cbn zeta. rewrite !ch_letter by assumption. rewrite IH by exact RT. reflexivity. }
  split; auto. split; auto.
  split. { pattern l. apply triples; auto. }
  split.
  { pattern l. apply triples; clear.
    - exists 0%nat; reflexivity. - intros; exists 1%nat; reflexivity. - intros; exists 1%nat; reflexivity.
    - intros a b c t [q E]. exists (S q). cbn [b64encode]. simpl List.length. rewrite E. lia. }
  assert (S6 : forall n j, bits (j + 6) n = (bits j (n / 64) ++ bits 6 n)%list) by (intros; apply (bits_app 6)).
  assert (S12 : forall n j, bits (j + 12) n = (bits j (n / 4096) ++ bits 12 n)%list) by (intros; apply (bits_app 12)).
  assert (S18 : forall n j, bits (j + 18) n = (bits j (n / 262144) ++ bits 18 n)%list) by (intros; apply (bits_app 18)).
  assert (S8 : forall n j, bits (j + 8) n = (bits j (n / 256) ++ bits 8 n)%list) by (intros; apply (bits_app 8)).
  assert (S16 : forall n j, bits (j + 16) n = (bits j (n / 65536) ++ bits 16 n)%list) by (intros; apply (bits_app 16)).
  assert (S2 : forall n j, bits (j + 2) n = (bits j (n / 4) ++ bits 2 n)%list) by (intros; apply (bits_app 2)).
  assert (S4 : forall n j, bits (j + 4) n = (bits j (n / 16) ++ bits 4 n)%list) by (intros; apply (bits_app 4)).
  assert (M6 : forall n, bits 6 (n mod 64) = bits 6 n) by (intros; apply (bits_mod 6)).
  revert Hl. pattern l. apply triples; clear l R.
  - reflexivity.
  - intros a H. inversion H as [|? ? Ha _]; subst. unfold is_byte in Ha. cbn [sextets_of flat_map pad_of]. rewrite !app_nil_r, M6.
    rewrite <- (S6 (a * 16) 6%nat). change (6 + 6)%nat with (8 + 4)%nat. rewrite S4.
    rewrite Z.div_mul by lia. f_equal. change (2 * 2)%nat with 4%nat.
    rewrite <- (bits_mod 4). change (2 ^ Z.of_nat 4) with 16. rewrite Z.mod_mul by lia. reflexivity.
  - intros a b H. inversion H as [|? ? Ha H']; subst. inversion H' as [|? ? Hb _]; subst. unfold is_byte in *.
    cbn [sextets_of flat_map pad_of]. set (m := a * 256 + b). rewrite !app_nil_r, !M6.
    rewrite <- (S6 (m * 4) 6%nat). change (6 + 6)%nat with 12%nat. rewrite <- (S12 (m * 4) 6%nat). change (6 + 12)%nat with (16 + 2)%nat.
    rewrite S2, Z.div_mul by lia. f_equal.
    + change 16%nat with (8 + 8)%nat. rewrite S8. unfold m. 
      replace ((a * 256 + b) / 256) with a by lia.
      rewrite <- (bits_mod 8 (a * 256 + b)). change (2 ^ Z.of_nat 8) with 256.
      replace ((a * 256 + b) mod 256) with b by lia. reflexivity.
    + rewrite <- (bits_mod 2). change (2 ^ Z.of_nat 2) with 4. rewrite Z.mod_mul by lia. reflexivity.
  - intros a b c t IH H. inversion H as [|? ? Ha H']; subst. inversion H' as [|? ? Hb H'']; subst. inversion H'' as [|? ? Hc H''']; subst.
    unfold is_byte in Ha, Hb, Hc. cbn [sextets_of flat_map pad_of]. set (n := a * 65536 + b * 256 + c). rewrite !M6, IH by auto.
    rewrite !app_assoc. f_equal. f_equal. rewrite <- !app_assoc.
    rewrite <- (S6 n 6%nat). change (6 + 6)%nat with 12%nat. rewrite <- (S12 n 6%nat). change (6 + 12)%nat with 18%nat.
    rewrite <- (S18 n 6%nat). change (6 + 18)%nat with (8 + 16)%nat. rewrite S16. unfold n.
    replace ((a * 65536 + b * 256 + c) / 65536) with a by lia. f_equal.
    change 16%nat with (8 + 8)%nat. rewrite S8.
    rewrite <- (bits_mod 8 (_ / 256)), <- (bits_mod 8 (a * 65536 + b * 256 + c)). change (2 ^ Z.of_nat 8) with 256.
    replace ((a * 65536 + b * 256 + c) / 256 mod 256) with b by lia.
    replace ((a * 65536 + b * 256 + c) mod 256) with c by lia. reflexivity.
Qed.

(** ** quoting *)
Definition all_chars : list ascii := map (fun n => ascii_of_N (N.of_nat n)) (seq 0 256).
Lemma all_chars_in : forall c, In c all_chars.
Proof.
  intros c. unfold all_chars. apply in_map_iff. exists (nat_of_ascii c). split.
  - unfold nat_of_ascii. rewrite N2Nat.id. apply ascii_N_embedding.
  - apply in_seq. pose proof (nat_ascii_bounded c). lia.
Qed.
Lemma check_all : forall p : ascii -> bool, forallb p all_chars = true -> forall c, p c = true.
Proof. intros p H c. rewrite forallb_forall in H. apply H, all_chars_in. Qed.
Lemma quote_percent : forall s, percent (quote s) s.
Proof.
  induction s as [|c s IH]; [constructor|]. unfold quote in *. cbn [flat_map].
  unfold quote_char at 1. destruct (existsb (Ascii.eqb c) always_safe) eqn:E; cbn [app].
  - constructor; auto. intros ->. discriminate.
  - set (n := Z.of_N (N_of_ascii c)) in *.
    assert (R : 0 <= n < 256) by (unfold n; pose proof (N_ascii_bounded c); lia).
    assert (H : forall k, 0 <= k < 16 -> hex_value (nth (Z.to_nat k) hex_digits "0"%char) = Some k).
    { intros k Hk. assert (T : forallb (fun k => match hex_value (nth (Z.to_nat k) hex_digits "0"%char) with Some j => j =? k | None => false end)
        (map Z.of_nat (seq 0 16)) = true) by reflexivity.
      rewrite forallb_forall in T. specialize (T k).
      assert (I : In k (map Z.of_nat (seq 0 16))) by (rewrite <- (Z2Nat.id k) by lia; apply in_map, in_seq; lia).
      specialize (T I). destruct (hex_value _) as [j|]; [|discriminate]. apply Z.eqb_eq in T. congruence. }
    replace c with (char_of (16 * (n / 16) + n mod 16)) at 1.
    + apply percent_escape; auto; apply H; lia.
    + replace (16 * (n / 16) + n mod 16) with n by lia. unfold char_of, n. rewrite N2Z.id. apply ascii_N_embedding.
Qed.
Lemma quote_safe : forall s, Forall attribute_safe (quote s).
Proof.
  intros s. apply Forall_forall. intros x H. unfold quote in H. apply in_flat_map in H. destruct H as (c & _ & H).
  assert (T : forallb (fun x => negb (existsb (Ascii.eqb x) [""""; "<"; ">"; "&"]%char)) (quote_char c) = true).
  { apply (check_all (fun c => forallb (fun x => negb (existsb (Ascii.eqb x) [""""; "<"; ">"; "&"]%char)) (quote_char c))). vm_compute. reflexivity. }
  rewrite forallb_forall in T. specialize (T x H). intros I.
  assert (X : existsb (Ascii.eqb x) [""""; "<"; ">"; "&"]%char = true) by (apply existsb_exists; exists x; split; [exact I|apply Ascii.eqb_refl]).
  rewrite X in T. discriminate.
Qed.

(** ** C196 *)
Theorem C196_decodes : forall png, Forall is_byte png -> exists body b,
  encode png = (list_ascii_of_string "<img src =""data:image/png;base64," ++ body ++ list_ascii_of_string """/>")%list /\
  Forall attribute_safe body /\ percent body b /\ base64 b png /\
  (forall b' other, percent body b' -> base64 b' other -> other = png).
Proof.
  intros png H. exists (quote (b64encode png)), (b64encode png).
  split; [reflexivity|]. split; [apply quote_safe|]. split; [apply quote_percent|]. split; [now apply b64_base64|].
  intros b' other P B. apply (base64_unique b'); auto.
  rewrite <- (percent_unique _ _ (quote_percent (b64encode png)) _ P). now apply b64_base64.
Qed.
Theorem C196_injective : forall p q, Forall is_byte p -> Forall is_byte q -> encode p = encode q -> p = q.
Proof.
  intros p q Hp Hq E. unfold encode in E. apply app_inv_head in E. apply app_inv_tail in E.
  pose proof (quote_percent (b64encode p)) as P. rewrite E in P.
  pose proof (percent_unique _ _ P _ (quote_percent (b64encode q))) as X.
  apply (base64_unique (b64encode q)); [rewrite <- X|]; now apply b64_base64.
Qed.
Example C196_ex : Forall is_byte [137; 80; 78; 71; 251] /\
  quote (b64encode [251; 255]) = list_ascii_of_string "%2B/8%3D".
Proof. split; [|reflexivity]. unfold is_byte. repeat constructor; lia. Qed.

Print Assumptions C196_decodes.
Print Assumptions C196_injective.
