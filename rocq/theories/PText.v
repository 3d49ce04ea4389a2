(** Properties C87, C88, C114: text embedded in notebooks, saved test planes. *)
From Coq Require Import List NArith Bool Arith Lia String Ascii.
From Verif Require Import RVec MText SpecText.
Import ListNotations.
Open Scope N_scope.
Notation length := List.length.

(** * str.replace *)
Lemma prefixb_spec : forall p s, prefixb p s = true <-> exists r, s = p ++ r.
Proof.
  induction p as [|a p IH]; intros s; [cbn; split; eauto|]. destruct s as [|b s]; [cbn; split; [discriminate|intros [r E]; discriminate]|].
  cbn [prefixb]. rewrite andb_true_iff, N.eqb_eq, IH. split.
  - intros [-> [r ->]]. exists r. reflexivity.
  - intros [r E]. injection E as <- ->. eauto.
Qed.
Lemma prefixb_sep : forall p d c r, ~ In c p -> prefixb p (d ++ c :: r) = prefixb p d.
Proof.
  induction p as [|a p IH]; intros d c r NI; auto. destruct d as [|b d]; cbn [app prefixb].
  - destruct (N.eqb_spec a c); auto. subst. exfalso. apply NI. left. auto.
  - rewrite IH; auto. intros I. apply NI. right. auto.
Qed.
Lemma prefixb_len : forall p s, prefixb p s = true -> (length p <= length s)%nat.
Proof. intros p s H. apply prefixb_spec in H. destruct H as [r ->]. rewrite app_length. lia. Qed.
Lemma replace_sep_go : forall pat rep c r d k, ~ In c pat -> pat <> [] -> (k <= length d)%nat ->
  replace_go pat rep (d ++ c :: r) k = replace_go pat rep d k ++ c :: replace_go pat rep r O.
Proof.
  intros pat rep c r d. induction d as [|b d IH]; intros k NI NE LK; cbn [app].
  - cbn [length] in LK. replace k with O by lia. cbn [replace_go app].
    destruct pat as [|a pat]; [congruence|]. cbn [prefixb]. destruct (N.eqb_spec a c) as [->|]; [exfalso; apply NI; left; auto|]. reflexivity.
  - cbn [replace_go]. destruct k as [|k]; [|apply IH; auto; cbn in LK; lia].
    replace (prefixb pat (b :: d ++ c :: r)) with (prefixb pat (b :: d)) by (symmetry; apply (prefixb_sep pat (b :: d)); auto).
    destruct (prefixb pat (b :: d)) eqn:E.
    + rewrite IH; auto; [apply app_assoc|]. apply prefixb_len in E. cbn in E. lia.
    + cbn [app]. rewrite IH; auto. lia.
Qed.
Lemma replace_sep : forall pat rep c d r, ~ In c pat -> pat <> [] -> replace pat rep (d ++ c :: r) = replace pat rep d ++ c :: replace pat rep r.
Proof. intros. apply replace_sep_go; auto. lia. Qed.
Lemma replace_absent : forall pat rep s, ~ occurs pat s -> replace pat rep s = s.
Proof.
  intros pat rep s. unfold replace. induction s as [|c s IH]; intros NO; auto. cbn [replace_go].
  destruct (prefixb pat (c :: s)) eqn:E.
  - exfalso. apply NO. apply prefixb_spec in E. destruct E as [r E]. exists [], r. auto.
  - rewrite IH; auto. intros (a & b & ->). apply NO. exists (c :: a), b. reflexivity.
Qed.

(** * C87 *)
Definition before : text := nl ++ tx "<div id='a__" .
Definition middle : text := tx "'></div>" ++ nl ++ tx "<script type='text/javascript'>" ++ nl ++ tx "  var data=JSON.parse('".
Definition after : text := tx "');" ++ nl ++ tx "  attitudeUI(document.querySelector('#a__".
Definition ending : text := tx "'),data);" ++ nl ++ tx "</script>" ++ nl.
Lemma script_eq : forall data uuid,
  script data uuid = before ++ (tx "A" ++ uuid) ++ middle ++ replace (tx "<<<hash>>>") (tx "A" ++ uuid) data ++ after ++ (tx "A" ++ uuid) ++ ending.
Proof.
  intros data uuid. unfold script.
  assert (E : replace (tx "<<<data>>>") data template = before ++ tx "<<<hash>>>" ++ middle ++ data ++ after ++ tx "<<<hash>>>" ++ ending).
  { unfold template, before, middle, after, ending, replace. cbn. rewrite <- ?app_assoc. reflexivity. }
  rewrite E.
  set (P := before ++ tx "<<<hash>>>" ++ removelast middle). set (Q := tl after ++ tx "<<<hash>>>" ++ ending).
  replace (before ++ tx "<<<hash>>>" ++ middle ++ data ++ after ++ tx "<<<hash>>>" ++ ending) with (P ++ 39 :: data ++ 39 :: Q) by reflexivity.
  assert (NI : ~ In 39 (tx "<<<hash>>>")) by (cbn; intuition discriminate).
  rewrite !replace_sep by (auto; discriminate).
  replace (replace (tx "<<<hash>>>") (tx "A" ++ uuid) P) with (before ++ (tx "A" ++ uuid) ++ removelast middle) by reflexivity.
  replace (replace (tx "<<<hash>>>") (tx "A" ++ uuid) Q) with (tl after ++ (tx "A" ++ uuid) ++ ending) by reflexivity.
  rewrite <- !app_assoc. reflexivity.
Qed.
(** What the browser makes of the HTML text: the script element ends at the first </script
    and data is the value of the literal after JSON.parse( *)
Definition browser (sc : text) : option text :=
  match after_first (tx "JSON.parse('") (before_first (tx "</script") sc) with
  | Some t => match js_literal t with Some (v, _) => Some v | None => None end
  | None => None
  end.
(** the characters of a uuid4: hexadecimal digits and dashes *)
Definition uuid_char (c : N) : Prop := c = 45 \/ 48 <= c <= 57 \/ 97 <= c <= 102.
Definition uuid_text (u : text) : Prop := length u = 36%nat /\ forall c, In c u -> uuid_char c.

Lemma starts_prefixb : forall p s, starts p s = prefixb p s.
Proof. induction p as [|a p IH]; intros [|b s]; cbn; rewrite ?IH; auto. Qed.
Lemma bf_sep : forall p c r d, ~ In c p -> p <> [] -> ~ occurs p d -> before_first p (d ++ c :: r) = d ++ c :: before_first p r.
Proof.
  intros p c r d NI NE. induction d as [|b d IH]; intros NO; cbn [app before_first].
  - rewrite starts_prefixb. destruct p as [|a p]; [congruence|]. cbn [prefixb]. destruct (N.eqb_spec a c) as [->|]; [exfalso; apply NI; left; auto|]. reflexivity.
  - rewrite starts_prefixb. replace (prefixb p (b :: d ++ c :: r)) with (prefixb p (b :: d)) by (symmetry; apply (prefixb_sep p (b :: d)); auto).
    destruct (prefixb p (b :: d)) eqn:E; [exfalso; apply NO; apply prefixb_spec in E; destruct E as [q E]; exists [], q; exact E|].
    rewrite IH; auto. intros (x & y & ->). apply NO. exists (b :: x), y. reflexivity.
Qed.
Lemma bf_skip : forall a p d r, ~ In a d -> before_first (a :: p) (d ++ r) = d ++ before_first (a :: p) r.
Proof.
  intros a p d r. induction d as [|b d IH]; intros NI; auto. cbn [app before_first starts]. destruct (N.eqb_spec a b) as [->|]; [exfalso; apply NI; left; auto|].
  cbn [andb]. rewrite IH; auto. intros I. apply NI. right. auto.
Qed.
Lemma af_skip : forall a p d r, ~ In a d -> after_first (a :: p) (d ++ r) = after_first (a :: p) r.
Proof.
  intros a p d r. induction d as [|b d IH]; intros NI; auto. cbn [app after_first starts]. destruct (N.eqb_spec a b) as [->|]; [exfalso; apply NI; left; auto|].
  cbn [andb]. rewrite IH; auto. intros I. apply NI. right. auto.
Qed.
Lemma bf_cut : forall p z s, ~ In z p -> occurs p s -> exists a b, s = a ++ b /\ forall r, before_first p (s ++ z :: r) = a.
Proof.
  intros p z s NI. induction s as [|c s IH]; intros O.
  - destruct O as (a & b & E). destruct a; [|discriminate]. destruct p; [|discriminate]. exists [], []. split; auto.
  - destruct (prefixb p (c :: s)) eqn:P.
    + exists [], (c :: s). split; auto. intros r. cbn [app before_first]. rewrite starts_prefixb.
      replace (prefixb p (c :: s ++ z :: r)) with true; auto. rewrite <- P. symmetry. apply (prefixb_sep p (c :: s)). auto.
    + destruct IH as (a & b & -> & K).
      { destruct O as (x & y & E). destruct x as [|x0 x]; [exfalso; assert (prefixb p (c :: s) = true) by (apply prefixb_spec; exists y; auto); congruence|].
        injection E as <- ->. exists x, y. auto. }
      exists (c :: a), b. split; auto. intros r. cbn [app before_first]. rewrite starts_prefixb.
      replace (prefixb p (c :: (a ++ b) ++ z :: r)) with false; [rewrite K; auto|]. rewrite <- P. symmetry. apply (prefixb_sep p (c :: a ++ b)). auto.
Qed.
Lemma uuid_not : forall u c, uuid_text u -> In c u -> c <> 60 /\ c <> 74 /\ c <> 39 /\ c <> 92 /\ c <> 10 /\ c <> 13.
Proof. intros u c [_ U] I. specialize (U c I). unfold uuid_char in U. lia. Qed.
Definition end_tag := tx "</script".
Definition json_open := tx "JSON.parse('".
(** the two ways to reach the literal *)
Lemma browser_head : forall X uuid, uuid_text uuid ->
  browser (before ++ (tx "A" ++ uuid) ++ middle ++ X) = match js_literal (before_first end_tag X) with Some (v, _) => Some v | None => None end.
Proof.
  intros X uuid U. unfold browser.
  assert (B : before_first (tx "</script") (before ++ (tx "A" ++ uuid) ++ middle ++ X) = before ++ (tx "A" ++ uuid) ++ middle ++ before_first end_tag X).
  { change (before_first (tx "</script") (before ++ (tx "A" ++ uuid) ++ middle ++ X)) with (before ++ tx "A" ++ before_first (60 :: tl (tx "</script")) (uuid ++ middle ++ X)).
    rewrite bf_skip by (intros I; apply (uuid_not _ _ U) in I; lia). rewrite <- !app_assoc. reflexivity. }
  rewrite B.
  assert (A : after_first (tx "JSON.parse('") (before ++ (tx "A" ++ uuid) ++ middle ++ before_first end_tag X) = Some (before_first end_tag X)).
  { change (after_first (tx "JSON.parse('") (before ++ (tx "A" ++ uuid) ++ middle ++ before_first end_tag X)) with (after_first (74 :: tl (tx "JSON.parse('")) (uuid ++ middle ++ before_first end_tag X)).
    rewrite af_skip by (intros I; apply (uuid_not _ _ U) in I; lia). reflexivity. }
  rewrite A. reflexivity.
Qed.
(** characters that mean themselves in a literal *)
Definition plain_char (c : N) : Prop := c <> 39 /\ c <> 92 /\ c <> 10 /\ c <> 13.
Lemma js_plain : forall d r, (forall c, In c d -> plain_char c) -> js_literal (d ++ r) = match js_literal r with Some (v, q) => Some (d ++ v, q) | None => None end.
Proof.
  induction d as [|c d IH]; intros r P; cbn [app]; [destruct (js_literal r) as [[v q]|]; auto|]. cbn [js_literal].
  destruct (P c (or_introl eq_refl)) as (A & B & C & D).
  rewrite (proj2 (N.eqb_neq c 39)), (proj2 (N.eqb_neq c 92)), (proj2 (N.eqb_neq c 10)), (proj2 (N.eqb_neq c 13)) by auto. cbn [orb].
  rewrite IH by (intros; apply P; right; auto). destruct (js_literal r) as [[v q]|]; reflexivity.
Qed.
Theorem C87_text : forall data uuid, uuid_text uuid -> (forall c, In c data -> plain_char c) ->
  ~ occurs (tx "<<<hash>>>") data -> ~ occurs (tx "</script") data -> browser (script data uuid) = Some data.
Proof.
  intros data uuid U P NO NS. rewrite script_eq, replace_absent by auto. rewrite browser_head by auto.
  change (after ++ (tx "A" ++ uuid) ++ ending) with (39 :: (tl after ++ (tx "A" ++ uuid) ++ ending)).
  rewrite bf_sep; auto; [|cbn; intuition discriminate|discriminate]. rewrite js_plain by auto. cbn [js_literal N.eqb Pos.eqb]. rewrite app_nil_r. reflexivity.
Qed.
(** the element looked up is the one created, whatever the data *)
Theorem C87_element : forall data uuid, exists a b c, script data uuid =
  a ++ tx "<div id='a__A" ++ uuid ++ tx "'></div>" ++ b ++ tx "document.querySelector('#a__A" ++ uuid ++ tx "')" ++ c.
Proof.
  intros data uuid. exists nl.
  exists (nl ++ tx "<script type='text/javascript'>" ++ nl ++ tx "  var data=JSON.parse('" ++ replace (tx "<<<hash>>>") (tx "A" ++ uuid) data ++ tx "');" ++ nl ++ tx "  attitudeUI(").
  exists (tx ",data);" ++ nl ++ tx "</script>" ++ nl). rewrite script_eq. unfold before, middle, after, ending. rewrite <- ?app_assoc. cbn. rewrite <- ?app_assoc. reflexivity.
Qed.
(** a closing tag in the data ends the script inside the literal *)
Theorem C87_script_end_refuted : forall data uuid, uuid_text uuid -> (forall c, In c data -> plain_char c) ->
  ~ occurs (tx "<<<hash>>>") data -> occurs (tx "</script") data -> browser (script data uuid) = None.
Proof.
  intros data uuid U P NO S. rewrite script_eq, replace_absent by auto. rewrite browser_head by auto.
  change (after ++ (tx "A" ++ uuid) ++ ending) with (39 :: (tl after ++ (tx "A" ++ uuid) ++ ending)).
  destruct (bf_cut end_tag 39 data) as (a & b & -> & K); auto; [cbn; intuition discriminate|]. rewrite K.
  replace a with (a ++ []) by apply app_nil_r. rewrite js_plain by (intros c I; apply P; apply in_or_app; auto). reflexivity.
Qed.
Lemma replace_longer : forall pat rep s k, pat <> [] -> (length pat < length rep)%nat ->
  (length s <= length (replace_go pat rep s k) + k)%nat.
Proof.
  intros pat rep s. induction s as [|c s IH]; intros k NE L; cbn [replace_go]; [cbn; lia|]. destruct k as [|k].
  - destruct (prefixb pat (c :: s)) eqn:E.
    + rewrite app_length. specialize (IH (length pat - 1)%nat NE L). cbn [length]. lia.
    + specialize (IH O NE L). cbn [length]. lia.
  - specialize (IH k NE L). cbn [length]. lia.
Qed.
Lemma replace_longer_occ : forall pat rep s, pat <> [] -> (length pat < length rep)%nat -> occurs pat s ->
  (length s < length (replace pat rep s))%nat.
Proof.
  intros pat rep s NE L. unfold replace. induction s as [|c s IH]; intros O.
  - destruct O as (a & b & E). destruct a; [|discriminate]. destruct pat; [congruence|discriminate].
  - cbn [replace_go]. destruct (prefixb pat (c :: s)) eqn:E.
    + rewrite app_length. pose proof (replace_longer pat rep s (length pat - 1) NE L). destruct pat; [congruence|]. cbn [length] in *. lia.
    + cbn [length]. assert (O' : occurs pat s). { destruct O as (a & b & E'). destruct a as [|x a]; [exfalso; assert (prefixb pat (c :: s) = true) by (apply prefixb_spec; exists b; auto); congruence|].
        injection E' as <- ->. exists a, b. auto. }
      specialize (IH O'). lia.
Qed.
Lemma replace_in : forall pat rep s k c, In c (replace_go pat rep s k) -> In c s \/ In c rep.
Proof.
  intros pat rep s. induction s as [|x s IH]; intros k c I; [destruct I|]. cbn [replace_go] in I. destruct k as [|k].
  - destruct (prefixb pat (x :: s)).
    + apply in_app_or in I. destruct I as [I|I]; auto. apply IH in I. cbn. tauto.
    + destruct I as [<-|I]; [cbn; auto|]. apply IH in I. cbn. tauto.
  - apply IH in I. cbn. tauto.
Qed.
(** the data's own placeholder texts are replaced as well, changing the data *)
Theorem C87_placeholder_refuted : forall data uuid, uuid_text uuid -> (forall c, In c data -> plain_char c) ->
  occurs (tx "<<<hash>>>") data -> browser (script data uuid) <> Some data.
Proof.
  intros data uuid U P O. rewrite script_eq. rewrite browser_head by auto. set (d := replace _ _ data).
  assert (LD : (length data < length d)%nat). { apply replace_longer_occ; auto; [discriminate|]. rewrite app_length. destruct U as [-> _]. cbn. lia. }
  assert (PD : forall c, In c d -> plain_char c).
  { intros c I. apply replace_in in I. destruct I as [I|I]; auto. apply in_app_or in I. destruct I as [[<-|[]]|I]; [unfold plain_char; cbn; lia|].
    apply (uuid_not _ _ U) in I. unfold plain_char. tauto. }
  change (after ++ (tx "A" ++ uuid) ++ ending) with (39 :: (tl after ++ (tx "A" ++ uuid) ++ ending)).
  assert (DEC : occurs end_tag d \/ ~ occurs end_tag d).
  { clear. generalize end_tag as p. intros p. induction d as [|c d IH].
    - destruct p; [left; exists [], []; auto|right; intros (a & b & E); destruct a; discriminate].
    - destruct (prefixb p (c :: d)) eqn:E; [left; apply prefixb_spec in E; destruct E as [q E]; exists [], q; auto|].
      destruct IH as [(a & b & ->)|N]; [left; exists (c :: a), b; auto|right]. intros (a & b & E'). destruct a as [|x a].
      + assert (prefixb p (c :: d) = true) by (apply prefixb_spec; exists b; auto). congruence.
      + injection E' as <- ->. apply N. exists a, b. auto. }
  destruct DEC as [S|NS].
  - destruct (bf_cut end_tag 39 d) as (a & b & E & K); auto; [cbn; intuition discriminate|]. rewrite K.
    replace a with (a ++ []) by apply app_nil_r. rewrite js_plain by (intros c I; apply PD; rewrite E; apply in_or_app; auto). cbn. discriminate.
  - rewrite bf_sep; auto; [|cbn; intuition discriminate|discriminate]. rewrite js_plain by auto. cbn [js_literal N.eqb Pos.eqb]. rewrite app_nil_r.
    intros E. injection E as E. rewrite E in LD. lia.
Qed.
(** ** strings *)
Lemma unhex_digit : forall d, d < 16 -> unhex (hexdigit d) = Some d.
Proof.
  intros d H. unfold hexdigit, unhex. destruct (N.ltb_spec d 10).
  - rewrite (proj2 (N.leb_le 48 _)), (proj2 (N.leb_le _ 57)) by lia. cbn [andb]. f_equal. lia.
  - rewrite (proj2 (N.leb_gt _ 57)) by lia. rewrite andb_false_r. rewrite (proj2 (N.leb_le 97 _)), (proj2 (N.leb_le _ 102)) by lia. cbn [andb]. f_equal. lia.
Qed.
Lemma unhex4_code : forall c, c < 65536 -> unhex4 (hexdigit (c / 4096)) (hexdigit (c / 256 mod 16)) (hexdigit (c / 16 mod 16)) (hexdigit (c mod 16)) = Some c.
Proof.
  intros c H. unfold unhex4. rewrite !unhex_digit; try (apply N.mod_lt; lia); [|apply N.div_lt_upper_bound; lia].
  f_equal. pose proof (N.div_mod c 16). pose proof (N.div_mod (c / 16) 16). pose proof (N.div_mod (c / 16 / 16) 16).
  rewrite !N.div_div in * by lia. change (16 * 16) with 256 in *. change (256 * 16) with 4096 in *. lia.
Qed.
Lemma js_esc : forall c r, c < 65536 -> c <> 39 -> js_literal (esc c ++ r) = consl c (js_literal r).
Proof.
  intros c r L N. unfold esc.
  destruct (N.eqb_spec c 34) as [->|]; [reflexivity|]. destruct (N.eqb_spec c 92) as [->|]; [reflexivity|]. destruct (N.eqb_spec c 10) as [->|]; [reflexivity|].
  destruct (N.eqb_spec c 13) as [->|]; [reflexivity|]. destruct (N.eqb_spec c 9) as [->|]; [reflexivity|]. destruct (N.eqb_spec c 12) as [->|]; [reflexivity|].
  destruct (N.eqb_spec c 8) as [->|]; [reflexivity|]. destruct ((32 <=? c) && (c <=? 126)) eqn:E.
  - cbn [app js_literal]. rewrite (proj2 (N.eqb_neq c 39)), (proj2 (N.eqb_neq c 92)), (proj2 (N.eqb_neq c 10)), (proj2 (N.eqb_neq c 13)) by auto. reflexivity.
  - cbn [app]. set (h1 := hexdigit (c / 4096)). set (h2 := hexdigit (c / 256 mod 16)). set (h3 := hexdigit (c / 16 mod 16)). set (h4 := hexdigit (c mod 16)).
    cbn [js_literal]. change (92 =? 39) with false. change ((92 =? 10) || (92 =? 13)) with false. change (92 =? 92) with true. change (117 =? 117) with true. cbn match.
    unfold h1, h2, h3, h4. rewrite unhex4_code by auto. reflexivity.
Qed.
Lemma js_dumps : forall s r, (forall c, In c s -> c < 65536 /\ c <> 39) -> js_literal (flat_map esc s ++ r) = match js_literal r with Some (v, q) => Some (s ++ v, q) | None => None end.
Proof.
  induction s as [|c s IH]; intros r P; cbn [flat_map app]; [destruct (js_literal r) as [[v q]|]; auto|]. rewrite <- app_assoc.
  destruct (P c (or_introl eq_refl)). rewrite js_esc by auto. rewrite IH by (intros; apply P; right; auto). destruct (js_literal r) as [[v q]|]; reflexivity.
Qed.
Lemma json_len : forall n t, (length t <= n)%nat -> forall v r, json_chars t = Some (v, r) -> (length v + 1 + length r <= length t)%nat /\
  ((length v + 1 + length r)%nat = length t -> t = v ++ 34 :: r /\ forall c, In c v -> c <> 34 /\ c <> 92 /\ 32 <= c).
Proof.
  induction n as [|n IH]; intros t LT v r E; destruct t as [|c t]; try discriminate; try (cbn in LT; lia).
  assert (CS : forall x t' v r, (length t' + 2 <= length (c :: t))%nat -> consl x (json_chars t') = Some (v, r) -> (length v + 1 + length r < length (c :: t))%nat).
  { intros x t' v' r' L C. destruct (json_chars t') as [[w q]|] eqn:J; [|discriminate]. cbn [consl] in C. injection C as <- <-. apply IH in J; [|cbn in LT, L; lia]. cbn [length] in *. lia. }
  cbn [json_chars] in E. destruct (N.eqb_spec c 34) as [->|N34].
  { injection E as <- <-. cbn [length app]. split; [lia|]. intros _. split; auto. intros c []. }
  destruct (N.ltb_spec c 32) as [|G]; [discriminate|]. destruct (N.eqb_spec c 92) as [->|N92].
  - assert (S : (length v + 1 + length r < length (92%N :: t))%nat); [|split; [lia|intros Q; lia]].
    destruct t as [|e t']; [discriminate|]. destruct (e =? 117).
    + destruct t' as [|h1 [|h2 [|h3 [|h4 t'']]]]; try discriminate. destruct (unhex4 h1 h2 h3 h4); [|discriminate]. eapply CS; [|exact E]. cbn; lia.
    + destruct (e =? 110); [eapply CS; [|exact E]; cbn; lia|]. destruct (e =? 114); [eapply CS; [|exact E]; cbn; lia|].
      destruct (e =? 116); [eapply CS; [|exact E]; cbn; lia|]. destruct (e =? 102); [eapply CS; [|exact E]; cbn; lia|].
      destruct (e =? 98); [eapply CS; [|exact E]; cbn; lia|]. destruct ((e =? 34) || (e =? 92) || (e =? 47)); [eapply CS; [|exact E]; cbn; lia|discriminate].
  - destruct (json_chars t) as [[w q]|] eqn:J; [|discriminate]. cbn [consl] in E. injection E as <- <-. apply IH in J; [|cbn in LT; lia].
    destruct J as [J1 J2]. cbn [length app]. split; [lia|]. intros Q. destruct J2 as [-> J3]; [lia|]. split; auto. intros x [<-|I]; auto.
Qed.
Lemma json_plain : forall s, (forall c, In c s -> c <> 34 /\ c <> 92 /\ 32 <= c) -> json_chars (s ++ [34]) = Some (s, []).
Proof.
  induction s as [|c s IH]; intros P; [reflexivity|]. cbn [app json_chars]. destruct (P c (or_introl eq_refl)) as (A & B & C).
  rewrite (proj2 (N.eqb_neq c 34)), (proj2 (N.eqb_neq c 92)), (proj2 (N.ltb_ge c 32)) by auto. rewrite IH; auto. intros; apply P; right; auto.
Qed.
Lemma first_split : forall (x : N) s, In x s -> exists s1 s2, s = s1 ++ x :: s2 /\ ~ In x s1.
Proof.
  intros x s. induction s as [|c s IH]; intros I; [destruct I|]. destruct (N.eq_dec c x) as [->|NE]; [exists [], s; auto|].
  destruct I as [E|I]; [congruence|]. destruct (IH I) as (s1 & s2 & -> & NI). exists (c :: s1), s2. split; auto. intros [E|I']; auto.
Qed.
(** a string arrives intact exactly when it holds no quote of either kind, no backslash and
    no control character *)
Theorem C87_string : forall s uuid, uuid_text uuid -> (forall c, In c s -> c < 65536) ->
  ~ occurs (tx "<<<hash>>>") (dumps_str s) -> ~ occurs (tx "</script") (dumps_str s) ->
  ((exists v, browser (script (dumps_str s) uuid) = Some v /\ json_string v = Some s) <->
   forall c, In c s -> c <> 39 /\ c <> 34 /\ c <> 92 /\ 32 <= c).
Proof.
  intros s uuid U LS NO NS. rewrite script_eq, replace_absent by auto. rewrite browser_head by auto.
  change (after ++ (tx "A" ++ uuid) ++ ending) with (39 :: (tl after ++ (tx "A" ++ uuid) ++ ending)).
  rewrite bf_sep; auto; [|cbn; intuition discriminate|discriminate]. set (rest := before_first _ _). unfold dumps_str.
  assert (Q : forall X, js_literal (([34] ++ X) ++ 39 :: rest) = consl 34 (js_literal (X ++ 39 :: rest))) by reflexivity. rewrite Q.
  rewrite <- app_assoc. destruct (in_dec N.eq_dec 39 s) as [I|NI].
  - split; [|intros P; destruct (P _ I); congruence]. intros (v & V & J). exfalso.
    destruct (first_split _ _ I) as (s1 & s2 & E & NI). rewrite E in V at 1. rewrite flat_map_app, <- app_assoc in V.
    rewrite js_dumps in V by (intros c K; split; [apply LS; rewrite E; apply in_or_app; auto|intros ->; auto]).
    cbn [flat_map] in V. rewrite <- app_assoc in V. change (js_literal (esc 39 ++ flat_map esc s2 ++ [34] ++ 39 :: rest)) with (Some ([] : list N, flat_map esc s2 ++ [34] ++ 39 :: rest)) in V.
    cbn [consl] in V. injection V as <-. rewrite app_nil_r in J. cbn [json_string] in J. change (34 =? 34) with true in J. cbn match in J.
    destruct (json_chars s1) as [[w [|]]|] eqn:K; try discriminate. injection J as ->. apply (json_len (length s1)) in K; [|lia].
    destruct K as [K _]. rewrite E in K. rewrite app_length in K. cbn [length] in K. lia.
  - rewrite js_dumps by (intros c K; split; [apply LS; auto|intros ->; auto]).
    change (js_literal ([34] ++ 39 :: rest)) with (Some ([34], rest)). cbn [consl]. split.
    + intros (v & V & J). injection V as <-. cbn [json_string] in J. change (34 =? 34) with true in J. cbn match in J.
      destruct (json_chars (s ++ [34])) as [[w [|]]|] eqn:K; try discriminate. injection J as ->. apply (json_len _ _ (le_n _)) in K. destruct K as [_ K].
      destruct K as [_ K]; [rewrite app_length; cbn; lia|]. intros c I. specialize (K c I). split; [intros ->; auto|tauto].
    + intros P. eexists. split; [reflexivity|]. cbn [json_string]. change (34 =? 34) with true. cbn match. rewrite json_plain; auto.
      intros c I. destruct (P c I) as (_ & A & B & C). auto.
Qed.
Example C87_ex_text : exists u, uuid_text u /\ browser (script (tx "[{""strike"": 12.5}]") u) = Some (tx "[{""strike"": 12.5}]").
Proof.
  exists (repeat 48 36). split; [|reflexivity]. split; [reflexivity|]. intros c I. apply repeat_spec in I. subst. unfold uuid_char. lia.
Qed.
Example C87_ex_string : (* a name with an apostrophe does not arrive, one without does *)
  browser (script (dumps_str (tx "bed A")) (repeat 48 36)) = Some (dumps_str (tx "bed A")) /\
  browser (script (dumps_str (tx "O'Neil")) (repeat 48 36)) = Some ([34] ++ tx "O") /\
  json_string ([34] ++ tx "O") = None.
Proof. repeat split. Qed.
Example C87_ex_script : browser (script (tx "[""</script>""]") (repeat 48 36)) = None.
Proof. reflexivity. Qed.

(** * C88 *)
Lemma white_space : forall c, white c <-> is_space c = true.
Proof.
  intros c. unfold white, is_space. cbn [In]. rewrite orb_true_iff, !andb_true_iff, !N.leb_le. lia.
Qed.
(** p is at the beginning of a line: empty, or after a line feed *)
Definition at_line_start (p : text) : Prop := p = [] \/ exists q, p = q ++ [10].
(** s has a line that is --- apart from white space *)
Definition has_separator (s : text) : Prop := exists p w w' q,
  s = p ++ (w ++ tx "---" ++ w') ++ q /\ at_line_start p /\ (forall c, In c (w ++ w') -> white c) /\
  ~ In 10 w /\ (q = [] \/ exists v, w' = v ++ [10]).
Lemma lstrip_spec : forall s, exists w, s = w ++ lstrip s /\ forall c, In c w -> is_space c = true.
Proof.
  induction s as [|c s [w [E P]]]; [exists []; split; auto; intros c []|]. cbn [lstrip]. destruct (is_space c) eqn:S; [|exists []; split; auto; intros x []].
  exists (c :: w). cbn [app]. split; [congruence|]. intros x [<-|I]; auto.
Qed.
Lemma strip_spec : forall s, exists w w', s = w ++ strip s ++ w' /\ forall c, In c (w ++ w') -> is_space c = true.
Proof.
  intros s. destruct (lstrip_spec s) as (w & E & P). destruct (lstrip_spec (rev (lstrip s))) as (w' & E' & P').
  exists w, (rev w'). split.
  - rewrite E at 1. f_equal. unfold strip. rewrite <- rev_app_distr, <- E', rev_involutive. reflexivity.
  - intros c I. apply in_app_or in I. destruct I as [I|I]; auto. apply P'. apply in_rev. auto.
Qed.
Lemma text_eqb_eq : forall a b, text_eqb a b = true <-> a = b.
Proof.
  induction a as [|x a IH]; intros [|y b]; cbn; try (split; [discriminate|congruence]); [tauto|].
  rewrite andb_true_iff, N.eqb_eq, IH. split; [intros [-> ->]; auto|intros E; injection E; auto].
Qed.
Fixpoint good_lines (ls : list text) : Prop :=
  match ls with [] => True | l :: r => ((exists v, l = v ++ [10] /\ ~ In 10 v) \/ (~ In 10 l /\ r = [])) /\ good_lines r end.
Lemma lines_good : forall s, good_lines (lines_of s) /\ List.concat (lines_of s) = s.
Proof.
  induction s as [|c s [G C]]; [cbn; auto|]. cbn [lines_of]. destruct (N.eqb_spec c 10) as [->|NC].
  - cbn [good_lines List.concat app]. split; [|congruence]. split; auto. left. exists []. auto.
  - destruct (lines_of s) as [|l r] eqn:L; cbn [good_lines List.concat app] in *.
    + subst. split; auto. split; auto. right. split; auto. intros [E|[]]; auto.
    + split; [|congruence]. destruct G as [G G2]. split; auto. destruct G as [(v & -> & V)|[V ->]].
      * left. exists (c :: v). split; auto. intros [E|I]; auto.
      * right. split; auto. intros [E|I]; auto.
Qed.
Lemma lines_in : forall s l, In l (lines_of s) -> exists p q, s = p ++ l ++ q /\ at_line_start p /\
  ((exists v, l = v ++ [10] /\ ~ In 10 v) \/ (~ In 10 l /\ q = [])).
Proof.
  intros s l I. destruct (lines_good s) as [G C]. apply in_split in I. destruct I as (l1 & l2 & E). rewrite E in G, C. clear E.
  exists (List.concat l1), (List.concat l2). split; [rewrite <- C, concat_app; reflexivity|]. clear C.
  assert (K : forall l1, good_lines (l1 ++ l :: l2) -> at_line_start (List.concat l1)).
  { clear. induction l1 as [|a l1 IH]; intros G; [left; auto|]. cbn [good_lines app] in G. destruct G as [[(v & -> & V)|[V E]] G]; [|destruct l1; discriminate].
    right. cbn [List.concat]. destruct (IH G) as [->|[q ->]]; [exists v; rewrite app_nil_r; auto|exists ((v ++ [10]) ++ q); rewrite <- !app_assoc; auto]. }
  split; auto. clear K. induction l1 as [|a l1 IH]; cbn [app good_lines] in G; [|apply IH; tauto]. destruct G as [[G|[G ->]] _]; auto.
Qed.
Lemma lines_app : forall a b, at_line_start a -> lines_of (a ++ b) = lines_of a ++ lines_of b.
Proof.
  assert (K : forall q b, lines_of ((q ++ [10]) ++ b) = lines_of (q ++ [10]) ++ lines_of b).
  { induction q as [|c q IH]; intros b; [reflexivity|]. cbn [app lines_of]. destruct (c =? 10); [cbn [app]; f_equal; apply IH|]. rewrite IH.
    destruct (lines_of (q ++ [10])) as [|l r] eqn:E; [|reflexivity]. exfalso. destruct (lines_good (q ++ [10])) as [_ C]. rewrite E in C. destruct q; discriminate. }
  intros a b [->|[q ->]]; auto.
Qed.
Lemma no_sep_lines : forall s, ~ has_separator s -> forall l, In l (lines_of s) -> sep_line l = false.
Proof.
  intros s NS l I. destruct (sep_line l) eqn:E; auto. exfalso. apply NS. apply text_eqb_eq in E.
  destruct (strip_spec l) as (w & w' & L & P). rewrite E in L. destruct (lines_in s l I) as (p & q & -> & S & T).
  exists p, w, w', q. split; [rewrite L; auto|]. split; auto. split; [intros c I'; apply white_space; auto|]. split.
  - destruct T as [(v & EV & V)|[V _]].
    + intros I'. assert (exists v', v = w ++ v').
      { assert (LEN : (length w <= length v)%nat). { rewrite L in EV. apply (f_equal (@length N)) in EV. rewrite !app_length in EV. cbn [length tx map] in EV. change (length (tx "---")) with 3%nat in EV. lia. }
        exists (skipn (length w) v). apply (f_equal (firstn (length w))) in EV. rewrite L in EV. rewrite firstn_app, firstn_all, Nat.sub_diag in EV. cbn [firstn] in EV. rewrite app_nil_r in EV.
        rewrite firstn_app in EV. replace (length w - length v)%nat with O in EV by lia. cbn [firstn] in EV. rewrite app_nil_r in EV. rewrite EV at 1. symmetry. apply firstn_skipn. }
      destruct H as [v' ->]. apply V. apply in_or_app. auto.
    + intros I'. apply V. rewrite L. apply in_or_app. auto.
  - destruct T as [(v & EV & V)|[_ ->]]; auto. right. destruct w' as [|x w'] using rev_ind; [|exists w'].
    + exfalso. rewrite app_nil_r in L. assert (EL : rev (w ++ tx "---") = rev (v ++ [10])) by congruence. rewrite !rev_app_distr in EL. cbn in EL. discriminate.
    + assert (EL : ((w ++ tx "---") ++ w') ++ [x] = v ++ [10]) by (rewrite <- !app_assoc; congruence). apply app_inj_tail in EL. destruct EL as [_ ->]. reflexivity.
Qed.
Lemma split_nosep : forall ls acc r, (forall l, In l ls -> sep_line l = false) -> split_go (ls ++ r) acc = split_go r (acc ++ List.concat ls).
Proof.
  induction ls as [|l ls IH]; intros acc r P; cbn [app List.concat split_go]; [rewrite app_nil_r; auto|]. rewrite (P l) by (left; auto).
  rewrite IH by (intros; apply P; right; auto). rewrite app_assoc. reflexivity.
Qed.
(** blocks joined by separator lines *)
Definition joined (blocks : list text) (last : text) : text := flat_map (fun b => b ++ tx "---" ++ nl) blocks ++ last.
Theorem C88_split : forall blocks last, (forall b, In b blocks -> at_line_start b /\ ~ has_separator b) -> ~ has_separator last ->
  split_text (joined blocks last) = blocks ++ [last].
Proof.
  intros blocks last P L. unfold split_text, joined. induction blocks as [|b blocks IH]; cbn [flat_map app].
  - replace (lines_of last) with (lines_of last ++ []) by apply app_nil_r. rewrite split_nosep by (apply no_sep_lines; auto).
    cbn [split_go app]. rewrite (proj2 (lines_good last)). reflexivity.
  - destruct (P b (or_introl eq_refl)) as [S N]. rewrite <- !app_assoc. rewrite (lines_app b) by auto. rewrite split_nosep by (apply no_sep_lines; auto).
    rewrite (proj2 (lines_good b)). cbn [app]. rewrite (app_assoc (tx "---") nl). rewrite lines_app by (right; exists (tx "---"); auto).
    change (lines_of (tx "---" ++ nl)) with [tx "---" ++ nl]. cbn [app split_go]. change (sep_line (tx "---" ++ nl)) with true. cbn match.
    rewrite IH; auto. intros; apply P; right; auto.
Qed.
Lemma lstrip_white : forall w s, (forall c, In c w -> is_space c = true) -> lstrip (w ++ s) = lstrip s.
Proof.
  induction w as [|c w IH]; intros s P; [reflexivity|]. cbn [app lstrip]. rewrite (P c) by (left; auto). apply IH. intros; apply P; right; auto.
Qed.
Lemma separator_line : forall l, separator l <-> sep_line l = true.
Proof.
  intros l. unfold sep_line. rewrite text_eqb_eq. change (tx "---") with [45; 45; 45]. split.
  - intros (w & w' & -> & P). assert (Q : forall c, In c (w ++ w') -> is_space c = true) by (intros; apply white_space; auto).
    unfold strip. rewrite lstrip_white by (intros; apply Q; apply in_or_app; auto). cbn [app lstrip]. change (is_space 45) with false. cbn match.
    change (45 :: 45 :: 45 :: w') with ([45; 45; 45] ++ w'). rewrite rev_app_distr.
    rewrite lstrip_white; [reflexivity|]. intros c I. apply Q. apply in_or_app. right. now apply in_rev.
  - intros E. destruct (strip_spec l) as (w & w' & L & P). rewrite E in L. exists w, w'. split; auto. intros c I. apply white_space. auto.
Qed.
(** Nothing but separator lines is lost, whatever the text: its lines [ls] are told apart by
    [k], the blocks are made of those that are no separators, one more than there are separators *)
Theorem C88_nothing_lost : forall s, exists ls k, List.concat ls = s /\
  (forall i l, nth_error ls i = Some l -> (k l = true <-> separator l) /\
     ((exists v, l = v ++ [10] /\ ~ In 10 v) \/ (~ In 10 l /\ S i = length ls))) /\
  List.concat (split_text s) = List.concat (filter (fun l => negb (k l)) ls) /\
  length (split_text s) = S (length (filter k ls)).
Proof.
  intros s. exists (lines_of s), sep_line. split; [apply lines_good|]. split.
  { intros i l I. split; [symmetry; apply separator_line|]. destruct (lines_good s) as [G _]. revert i I.
    generalize dependent (lines_of s). induction l0 as [|a r IH]; intros G i I; [destruct i; discriminate|]. cbn [good_lines] in G. destruct G as [[G|[G ->]] G'].
    - destruct i as [|i]; cbn [nth_error] in I; [injection I as <-; auto|]. destruct (IH G' i I) as [Q|[Q E]]; auto. right. split; auto. cbn [length]. lia.
    - destruct i as [|[|i]]; cbn [nth_error] in I; try discriminate. injection I as <-. auto. }
  unfold split_text.
  assert (K : forall ls acc, List.concat (split_go ls acc) = acc ++ List.concat (filter (fun l => negb (sep_line l)) ls) /\ length (split_go ls acc) = S (length (filter sep_line ls))).
  { induction ls as [|l ls IH]; intros acc; cbn [split_go filter List.concat]; [split; auto|]. destruct (sep_line l); cbn [negb List.concat length].
    - destruct (IH []) as [A B]. rewrite A, B. auto.
    - destruct (IH (acc ++ l)) as [A B]. rewrite A, B. rewrite <- app_assoc. auto. }
  destruct (K (lines_of s) []) as [A B]. rewrite A, B. auto.
Qed.
(** a line of dashes between a tab and a record separator separates *)
Example C88_ex_white : separator ([9] ++ [45; 45; 45] ++ [30; 10]) /\
  split_text (tx "1" ++ nl ++ ([9] ++ tx "---" ++ [30; 10]) ++ tx "2") = [tx "1" ++ nl; tx "2"].
Proof. split; [|reflexivity]. exists [9], [30; 10]. split; [reflexivity|]. unfold white. cbn. intuition. Qed.
Example C88_ex : split_text (joined [tx "1 2 3" ++ nl; tx "4 5 6" ++ nl] (tx "7 8 9")) = [tx "1 2 3" ++ nl; tx "4 5 6" ++ nl; tx "7 8 9"].
Proof. reflexivity. Qed.

(** * C114 *)
(** what is needed of '%.18e' and of its inverse *)
Definition good_format {V} (fmt : V -> text) (parse : text -> option V) : Prop :=
  (forall v, parse (fmt v) = Some v) /\ (forall v, fmt v <> []) /\
  (forall v c, In c (fmt v) -> ~ white c /\ c <> 35) /\ parse (tx "---") = None.
Section SaveLoad.
  Context {V : Type} (fmt : V -> text) (parse : text -> option V) (G : good_format fmt parse).
  Lemma format_space : (forall v, parse (fmt v) = Some v) /\ (forall v, fmt v <> []) /\
    (forall v c, In c (fmt v) -> is_space c = false /\ c <> 35) /\ parse (tx "---") = None.
  Proof.
    destruct G as (A & B & C & D). repeat split; auto; [|now apply (C v)]. destruct (is_space c) eqn:E; auto.
    exfalso. apply (proj1 (C v c H)). now apply white_space.
  Qed.
  Lemma uncomment_id : forall s, ~ In 35 s -> uncomment s = s.
  Proof. induction s as [|c s IH]; intros N; auto. cbn [uncomment]. destruct (N.eqb_spec c 35); [exfalso; apply N; left; auto|]. rewrite IH; auto. intros I. apply N. right. auto. Qed.
  Lemma fields_word : forall w c t acc, (forall x, In x w -> is_space x = false) -> is_space c = true -> acc ++ w <> [] ->
    fields_go (w ++ c :: t) acc = (acc ++ w) :: fields_go t [].
  Proof.
    induction w as [|x w IH]; intros c t acc P S N; cbn [app fields_go].
    - rewrite S. rewrite app_nil_r in *. destruct acc; [congruence|]. reflexivity.
    - rewrite (P x) by (left; auto). rewrite IH; auto; [rewrite <- app_assoc; auto|intros; apply P; right; auto|]. rewrite <- app_assoc. auto.
  Qed.
  Lemma join_no : forall r c, In c (join [32] (map fmt r)) -> c <> 35 /\ c <> 10.
  Proof.
    destruct format_space as (_ & _ & C & _). induction r as [|a [|b r] IH]; intros c I; [destruct I| |].
    - destruct (C a c I). split; auto. intros ->. discriminate.
    - cbn [map join] in I. apply in_app_or in I. destruct I as [I|I].
      + destruct (C a c I). split; auto. intros ->. discriminate.
      + cbn [app] in I. destruct I as [<-|I]; [split; discriminate|]. apply IH. exact I.
  Qed.
  Lemma fields_row : forall r, fields (join [32] (map fmt r) ++ [10]) = map fmt r.
  Proof.
    intros r. unfold fields. rewrite uncomment_id.
    2:{ intros I. apply in_app_or in I. destruct I as [I|[I|[]]]; [apply join_no in I; tauto|discriminate]. }
    destruct format_space as (_ & NE & C & _). induction r as [|a [|b r] IH]; [reflexivity| |].
    - cbn [map join]. rewrite fields_word; auto; [intros x I; apply (C a x I)|]. apply NE.
    - change (join [32] (map fmt (a :: b :: r)) ++ [10]) with ((fmt a ++ [32] ++ join [32] (map fmt (b :: r))) ++ [10]). rewrite <- !app_assoc. cbn [app].
      rewrite fields_word; auto; [|intros x I; apply (C a x I)|apply NE]. cbn [app]. rewrite IH. reflexivity.
  Qed.
  Lemma row_lines : forall rows, lines_of (savetxt V fmt rows) = map (fun r => join [32] (map fmt r) ++ [10]) rows.
  Proof.
    unfold savetxt. induction rows as [|r rows IH]; [reflexivity|]. cbn [flat_map map].
    assert (L1 : forall w, ~ In 10 w -> lines_of (w ++ [10]) = [w ++ [10]]).
    { induction w as [|c w IW]; intros N; [reflexivity|]. cbn [app lines_of]. destruct (N.eqb_spec c 10); [exfalso; apply N; left; auto|]. rewrite IW; auto. intros I. apply N. right. auto. }
    rewrite lines_app by (right; eexists; reflexivity). rewrite IH, L1; [reflexivity|]. intros I. apply join_no in I. tauto.
  Qed.
  Lemma row_not_sep : forall r, sep_line (join [32] (map fmt r) ++ [10]) = false.
  Proof.
    intros r. destruct (sep_line _) eqn:E; auto. exfalso. apply text_eqb_eq in E. destruct (strip_spec (join [32] (map fmt r) ++ [10])) as (w & w' & L & P). rewrite E in L.
    assert (F : fields (join [32] (map fmt r) ++ [10]) = [tx "---"]).
    { unfold fields. rewrite uncomment_id.
      2:{ intros I. apply in_app_or in I. destruct I as [I|[I|[]]]; [apply join_no in I; tauto|discriminate]. }
      rewrite L. clear L E. assert (SP : forall w t, (forall c, In c w -> is_space c = true) -> fields_go (w ++ t) [] = fields_go t []).
      { induction w0 as [|c w0 IW]; intros t Q; auto. cbn [app fields_go]. rewrite (Q c) by (left; auto). apply IW. intros; apply Q; right; auto. }
      rewrite SP by (intros; apply P; apply in_or_app; auto). destruct w' as [|c w']; [reflexivity|]. rewrite fields_word; [|cbn; intros x [<-|[<-|[<-|[]]]]; auto|apply P; apply in_or_app; right; left; auto|discriminate].
      cbn [app]. replace w' with (w' ++ []) by apply app_nil_r. rewrite SP; [reflexivity|]. intros; apply P; apply in_or_app; right; right; auto. }
    rewrite fields_row in F. destruct r as [|a [|b r]]; try discriminate. cbn [map] in F. injection F as F.
    destruct G as (R & _ & _ & N). specialize (R a). rewrite F in R. congruence.
  Qed.
  Lemma parse_row : forall r, opt_all parse (map fmt r) = Some r.
  Proof. destruct G as (R & _). induction r as [|a r IH]; auto. cbn [map opt_all]. rewrite R, IH. reflexivity. Qed.
  Lemma load_rows : forall k rows, (1 <= k)%nat -> rows <> [] -> (forall r, In r rows -> length r = k) -> load_test_plane V parse (savetxt V fmt rows) = Ok (Single V (squeeze V rows)).
  Proof.
    intros k rows K NE LR. unfold load_test_plane.
    assert (S : split_text (savetxt V fmt rows) = [savetxt V fmt rows]).
    { unfold split_text. rewrite row_lines. replace (map _ rows) with (map (fun r => join [32] (map fmt r) ++ [10]) rows ++ []) by apply app_nil_r.
      rewrite split_nosep by (intros l I; apply in_map_iff in I; destruct I as (r & <- & _); apply row_not_sep).
      cbn [split_go app]. unfold savetxt. rewrite flat_map_concat_map. reflexivity. }
    rewrite S. cbn [load_all]. unfold loadtxt. rewrite row_lines, map_map.
    assert (F : filter (fun r : list text => match r with [] => false | _ => true end) (map (fun x => fields (join [32] (map fmt x) ++ [10])) rows) = map (map fmt) rows).
    { clear S NE. induction rows as [|r rows IH]; auto. cbn [map filter]. rewrite fields_row. pose proof (LR r (or_introl eq_refl)) as L. destruct r as [|a r]; [cbn in L; lia|].
      cbn [map]. f_equal. apply IH. intros; apply LR; right; auto. }
    rewrite F.
    assert (O : opt_all (opt_all parse) (map (map fmt) rows) = Some rows). { clear -G. induction rows as [|r rows IH]; auto. cbn [map opt_all]. rewrite parse_row, IH. reflexivity. }
    rewrite O. destruct rows as [|r rows]; [congruence|].
    assert (E : forallb (fun x => Nat.eqb (length x) (length r)) rows = true).
    { apply forallb_forall. intros x I. apply Nat.eqb_eq. rewrite (LR x) by (right; auto). rewrite (LR r) by (left; auto). reflexivity. }
    rewrite E. reflexivity.
  Qed.
End SaveLoad.
(** one array of at least two rows and two columns is read back as it was saved *)
Theorem C114_round_trip : forall V (fmt : V -> text) parse rows k, good_format fmt parse -> (2 <= k)%nat -> (2 <= length rows)%nat -> (forall r, In r rows -> length r = k) ->
  exists file, save_test_plane V fmt [rows] = (file, Ok tt) /\ load_test_plane V parse file = Ok (Single V (ND2 V rows)).
Proof.
  intros V fmt parse rows k G K L LR. eexists. split; [reflexivity|]. rewrite (load_rows fmt parse G k); auto; [|lia|destruct rows; [cbn in L; lia|discriminate]].
  destruct rows as [|a [|b rows]]; cbn in L; try lia. cbn [squeeze]. rewrite (LR a) by (left; auto). destruct (Nat.eqb_spec k 1); [lia|].
  pose proof (LR a (or_introl eq_refl)) as LA. destruct a as [|x [|y a]]; cbn in LA; try lia. reflexivity.
Qed.
(** a single row comes back as a vector *)
Theorem C114_single_row_refuted : forall V (fmt : V -> text) parse r, good_format fmt parse -> (2 <= length r)%nat ->
  exists file, save_test_plane V fmt [[r]] = (file, Ok tt) /\ load_test_plane V parse file = Ok (Single V (ND1 V r)) /\ ND1 V r <> ND2 V [r].
Proof.
  intros V fmt parse r G L. eexists. split; [reflexivity|]. split; [|discriminate]. rewrite (load_rows fmt parse G (length r)); auto; [|lia|discriminate|intros x [<-|[]]; auto].
  destruct r as [|a [|b r]]; cbn in L; try lia. reflexivity.
Qed.
(** several arrays are never saved: TypeError, and the file holds the first alone *)
Theorem C114_several_refuted : forall V (fmt : V -> text) parse a b rest k, good_format fmt parse -> (2 <= k)%nat -> (2 <= length a)%nat -> (forall r, In r a -> length r = k) ->
  exists file, save_test_plane V fmt (a :: b :: rest) = (file, Raise TypeError) /\ load_test_plane V parse file = Ok (Single V (ND2 V a)).
Proof.
  intros V fmt parse a b rest k G K L LR. destruct (C114_round_trip V fmt parse a k G K L LR) as (f & E & H). cbn in E. injection E as E. exists f. split; auto. cbn. congruence.
Qed.
(** a format meeting the hypotheses: booleans as 0 and 1 *)
Example C114_ex : exists fmt parse, @good_format bool fmt parse /\
  load_test_plane bool parse (fst (save_test_plane bool fmt [[[true; false]; [false; true]]])) = Ok (Single bool (ND2 bool [[true; false]; [false; true]])).
Proof.
  exists (fun b : bool => if b then tx "1" else tx "0"), (fun t => match t with [49] => Some true | [48] => Some false | _ => None end). split; [|reflexivity].
  split; [intros []; reflexivity|]. split; [intros []; discriminate|]. split; [|reflexivity]. intros [] c [<-|[]]; (split; [|discriminate]); unfold white; cbn; intuition discriminate.
Qed.

(** one entry for each attitude handed over, in order, and one for a single one *)
Theorem C87_entries : forall M (a : attitudes_arg M), let is (o : obj M) (m : M) := o = HasMapping m \/ o = Plain m in
  match a with
  | AnySequence l => Forall2 is l (serialised a)
  | Other o => exists m, is o m /\ serialised a = [m]
  end.
Proof.
  intros M a is. assert (E : forall o, is o (mapping_of o)) by (intros [m|m]; unfold is; cbn; auto).
  destruct a as [l|o]; unfold serialised; [|cbn; eauto]. induction l as [|o l IH]; cbn [map]; constructor; auto.
Qed.
Example C87_entries_ex : serialised (AnySequence [HasMapping 1%nat; Plain 2%nat]) = [1%nat; 2%nat] /\ serialised (Other (Plain 3%nat)) = [3%nat].
Proof. split; reflexivity. Qed.
(** The text of a string is correct JSON on its own: what is lost is lost in the literal. *)
Theorem C87_json : forall s, (forall c, In c s -> c < 65536) -> json_string (dumps_str s) = Some s.
Proof.
  assert (E1 : forall c r, c < 65536 -> json_chars (esc c ++ r) = consl c (json_chars r)).
  { intros c r L. unfold esc.
    destruct (N.eqb_spec c 34) as [->|]; [reflexivity|]. destruct (N.eqb_spec c 92) as [->|]; [reflexivity|]. destruct (N.eqb_spec c 10) as [->|]; [reflexivity|].
    destruct (N.eqb_spec c 13) as [->|]; [reflexivity|]. destruct (N.eqb_spec c 9) as [->|]; [reflexivity|]. destruct (N.eqb_spec c 12) as [->|]; [reflexivity|].
    destruct (N.eqb_spec c 8) as [->|]; [reflexivity|]. destruct ((32 <=? c) && (c <=? 126)) eqn:E.
    - apply andb_true_iff in E. destruct E as [E _]. apply N.leb_le in E.
      cbn [app json_chars]. rewrite (proj2 (N.eqb_neq c 34)), (proj2 (N.eqb_neq c 92)), (proj2 (N.ltb_ge c 32)) by auto. reflexivity.
    - cbn [app]. set (h1 := hexdigit (c / 4096)). set (h2 := hexdigit (c / 256 mod 16)). set (h3 := hexdigit (c / 16 mod 16)). set (h4 := hexdigit (c mod 16)).
      cbn [json_chars]. change (92 =? 34) with false. change (92 <? 32) with false. change (92 =? 92) with true. change (117 =? 117) with true. cbn match.
      unfold h1, h2, h3, h4. rewrite unhex4_code by auto. reflexivity. }
  assert (ES : forall s, (forall c, In c s -> c < 65536) -> json_chars (flat_map esc s ++ [34]) = Some (s, [])).
  { induction s as [|c s IH]; intros P; [reflexivity|]. cbn [flat_map]. rewrite <- app_assoc, E1 by (apply P; left; auto).
    rewrite IH by (intros; apply P; right; auto). reflexivity. }
  intros s P. unfold dumps_str. cbn [app json_string]. change (34 =? 34) with true. cbn match. now rewrite ES.
Qed.

Print Assumptions C87_text.
Print Assumptions C87_element.
Print Assumptions C87_script_end_refuted.
Print Assumptions C87_placeholder_refuted.
Print Assumptions C87_string.
Print Assumptions C88_split.
Print Assumptions C88_nothing_lost.
Print Assumptions C114_round_trip.
Print Assumptions C114_single_row_refuted.
Print Assumptions C114_several_refuted.
Print Assumptions C87_entries.
Print Assumptions C87_json.
