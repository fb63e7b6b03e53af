(** Thm21.v - printed and drawn step patterns (proofs for C50). *)
From Coq Require Import Ascii DecimalString DecimalFacts DecimalN ZifyBool ZifyNat Lia.
From Verif Require Import Base Num StepPattern Window Core Backtrack Dtw Spec Api Tables Vocab Terms
  CoreProof DPProof Print PrintSpec.
Open Scope string_scope.
Open Scope list_scope.
Open Scope nat_scope.

Lemma append_assoc (a b c : string) : ((a ++ b) ++ c = a ++ (b ++ c))%string.
Proof. induction a; cbn; congruence. Qed.
Lemma append_nil (a : string) : (a ++ "" = a)%string.
Proof. induction a; cbn; congruence. Qed.

Lemma concat_cons (x : string) l : String.concat "" (x :: l) = (x ++ String.concat "" l)%string.
Proof. destruct l; cbn; [rewrite append_nil|]; reflexivity. Qed.

Lemma mapM_ok {A B} (f : A -> out B) (g : A -> B) l :
  (forall x, In x l -> f x = Ok (g x)) -> mapM f l = Ok (map g l).
Proof.
  induction l as [|a l IH]; intros H; cbn; [reflexivity|].
  rewrite (H a (or_introl eq_refl)). cbn. rewrite IH by (intros; apply H; right; assumption). reflexivity.
Qed.

(** ** Strings that determine their parts *)
Lemma split_at c (a a' x x' : string) : lacks c a = true -> lacks c a' = true ->
  (a ++ String c x = a' ++ String c x')%string -> a = a' /\ x = x'.
Proof.
  revert a'. induction a as [|b a IH]; intros [|b' a'] H H' E; cbn in *.
  - split; congruence.
  - injection E as -> E. rewrite Ascii.eqb_refl in H'. discriminate.
  - injection E as -> E. rewrite Ascii.eqb_refl in H. discriminate.
  - apply andb_prop in H. apply andb_prop in H'. injection E as -> E.
    destruct (IH a' (proj2 H) (proj2 H') E) as [-> ->]. split; reflexivity.
Qed.
Lemma app_inj_r (a a' x : string) : (a ++ x = a' ++ x)%string -> a = a'.
Proof.
  intros E.
  assert (El : String.length a = String.length a').
  { assert (H : forall s t, String.length (s ++ t)%string = String.length s + String.length t)
      by (clear; intros s t; induction s; cbn; congruence).
    apply (f_equal String.length) in E. rewrite !H in E. lia. }
  revert a' El E. induction a as [|b a IH]; intros [|b' a'] El E; cbn in *; try discriminate; [reflexivity|].
  injection E as -> E. f_equal. apply IH; [congruence|exact E].
Qed.
Lemma app_inj_l (x a a' : string) : (x ++ a = x ++ a')%string -> a = a'.
Proof. induction x; cbn; [auto|]. intros E. injection E as E. auto. Qed.
Lemma lacks_app c a b : lacks c (a ++ b)%string = lacks c a && lacks c b.
Proof. induction a; cbn; [reflexivity|]. rewrite IHa, Bool.andb_assoc. reflexivity. Qed.

Lemma lacks_cons c a s : lacks c (String a s) = true <-> Ascii.eqb a c = false /\ lacks c s = true.
Proof. cbn [lacks]. rewrite Bool.andb_true_iff, Bool.negb_true_iff. reflexivity. Qed.

Lemma lacks_uint c d : lacks c "0123456789" = true -> lacks c (NilEmpty.string_of_uint d) = true.
Proof.
  intros H. rewrite !lacks_cons in H.
  induction d; [reflexivity|..]; cbn [NilEmpty.string_of_uint]; rewrite lacks_cons; tauto.
Qed.
Lemma lacks_decimal c k : lacks c "0123456789" = true -> lacks c (decimal k) = true.
Proof.
  intros H. unfold decimal, NilZero.string_of_uint. destruct (N.to_uint (N.of_nat k)) eqn:E;
    rewrite <- ?E; try (apply lacks_uint; exact H).
  rewrite !lacks_cons in *. tauto.
Qed.
Lemma lacks_minus c k : lacks c "0123456789- " = true -> lacks c (minus_text k) = true.
Proof.
  intros H. destruct k as [|k]; unfold minus_text.
  - rewrite !lacks_cons in *. tauto.
  - change ("-" ++ decimal (S k))%string with (String "-" (decimal (S k))). rewrite lacks_cons.
    split; [rewrite !lacks_cons in H; tauto|]. apply lacks_decimal. rewrite !lacks_cons in *. tauto.
Qed.

Lemma decimal_inj a b : decimal a = decimal b -> a = b.
Proof.
  unfold decimal. intros E.
  assert (Hn : forall n, N.to_uint n <> Decimal.Nil).
  { intros n. destruct n as [|p]; [discriminate|]. cbn. apply DecimalPos.Unsigned.to_uint_nonnil. }
  apply (f_equal NilZero.uint_of_string) in E. rewrite !NilZero.usu in E by apply Hn.
  injection E as E. apply (f_equal N.of_uint) in E. rewrite !DecimalN.Unsigned.of_to in E. lia.
Qed.
Lemma minus_inj a b : minus_text a = minus_text b -> a = b.
Proof.
  destruct a as [|a], b as [|b]; unfold minus_text; intros E; try reflexivity; try discriminate E.
  apply app_inj_l in E. apply decimal_inj. exact E.
Qed.

Lemma cell_inj a b a' b' x x' : (cell_text a b ++ String "]" x = cell_text a' b' ++ String "]" x')%string ->
  a = a' /\ b = b' /\ x = x'.
Proof.
  unfold cell_text. rewrite !append_assoc. intros E. apply (app_inj_l "i") in E.
  cbn [append] in E. apply split_at in E; [|apply lacks_minus; reflexivity ..]. destruct E as [E1 E].
  injection E as E. apply split_at in E; [|apply lacks_minus; reflexivity ..]. destruct E as [E2 E].
  apply minus_inj in E1. apply minus_inj in E2. auto.
Qed.

Section S.
Context {N : Num}.
Variable fmt : N -> string.
Hypothesis fmt_d : forall w, lacks "d" (fmt w) = true.

Lemma weight_inj (w w' : N) x x' :
  (weight_text fmt w ++ " d[" ++ x = weight_text fmt w' ++ " d[" ++ x')%string ->
  same_weight_text fmt w w' /\ x = x'.
Proof.
  intros E.
  assert (Hd : forall v, lacks "d" (weight_text fmt v ++ " ")%string = true).
  { intros v. unfold weight_text. destruct (eqb v (ofZ 1)); [reflexivity|].
    rewrite append_assoc, lacks_app, fmt_d. reflexivity. }
  change (" d[" ++ x)%string with (" " ++ String "d" (String "[" x))%string in E.
  change (" d[" ++ x')%string with (" " ++ String "d" (String "[" x'))%string in E.
  rewrite <- !append_assoc in E. apply split_at in E; [|apply Hd ..]. destruct E as [E1 E2].
  injection E2 as E2. split; [|exact E2]. apply app_inj_r in E1.
  unfold weight_text in E1. unfold same_weight_text.
  assert (Hs : forall u : string, ("    " <> u ++ " *")%string).
  { intros u E. change "    " with ("   " ++ " ")%string in E.
    replace (u ++ " *")%string with ((u ++ " ") ++ "*")%string in E by (rewrite append_assoc; reflexivity).
    assert (Hl : forall (a b : string) c c', (a ++ String c "" = b ++ String c' "")%string -> c = c').
    { induction a as [|k a IH]; intros [|k' b] c c' E0; cbn in E0.
      - congruence.
      - injection E0 as _ E0. destruct b; discriminate E0.
      - injection E0 as _ E0. destruct a; discriminate E0.
      - injection E0 as _ E0. eapply IH; exact E0. }
    apply Hl in E. discriminate E. }
  destruct (eqb w (ofZ 1)) eqn:Ew, (eqb w' (ofZ 1)) eqn:Ew'.
  - left; auto.
  - exfalso. exact (Hs _ E1).
  - exfalso. symmetry in E1. exact (Hs _ E1).
  - right. repeat split; auto. apply app_inj_r in E1. exact E1.
Qed.

Lemma charges_inj (l l' : list (nat * nat * N)) x x' :
  (String.concat "" (map (charge_text fmt) l) ++ " ," ++ x =
   String.concat "" (map (charge_text fmt) l') ++ " ," ++ x')%string ->
  Forall2 (fun a a' => fst a = fst a' /\ same_weight_text fmt (snd a) (snd a')) l l' /\ x = x'.
Proof.
  revert l'. induction l as [|[[a b] w] l IH]; intros [|[[a' b'] w'] l'] E.
  - split; [constructor|]. cbn in E. injection E as E. exact E.
  - cbn [map] in E. rewrite concat_cons in E. unfold charge_text in E at 1. rewrite !append_assoc in E.
    cbn in E. discriminate E.
  - cbn [map] in E. rewrite concat_cons in E. unfold charge_text in E at 1. rewrite !append_assoc in E.
    cbn in E. discriminate E.
  - cbn [map] in E. rewrite !concat_cons in E. unfold charge_text in E at 1 3. cbn [fst snd] in E.
    rewrite !append_assoc in E. apply app_inj_l in E. apply weight_inj in E. destruct E as [Ew E].
    cbn [append] in E. apply cell_inj in E. destruct E as [-> [-> E]].
    destruct (IH l' E) as [IH1 IH2]. split; [|exact IH2]. constructor; [split; [reflexivity|exact Ew]|exact IH1].
Qed.

Lemma rules_inj (l l' : list (rule N)) x x' :
  (String.concat "" (map (rule_text fmt) l) ++ " ) " ++ x =
   String.concat "" (map (rule_text fmt) l') ++ " ) " ++ x')%string ->
  Forall2 (written_alike fmt) l l' /\ x = x'.
Proof.
  revert l'. induction l as [|r l IH]; intros [|r' l'] E.
  - split; [constructor|]. cbn in E. injection E as E. exact E.
  - cbn [map] in E. rewrite concat_cons in E. unfold rule_text in E at 1. rewrite !append_assoc in E.
    cbn in E. discriminate E.
  - cbn [map] in E. rewrite concat_cons in E. unfold rule_text in E at 1. rewrite !append_assoc in E.
    cbn in E. discriminate E.
  - cbn [map] in E. rewrite !concat_cons in E. unfold rule_text in E at 1 3.
    rewrite !append_assoc in E. apply (app_inj_l "     g[") in E.
    change (?u ++ "]" ++ ?v)%string with (u ++ String "]" v)%string in E.
    apply cell_inj in E. destruct E as [E1 [E2 E]]. apply charges_inj in E. destruct E as [E3 E].
    apply app_inj_l in E. destruct (IH l' E) as [IH1 IH2]. split; [|exact IH2].
    constructor; [|exact IH1]. split; [exact E1|split; [exact E2|exact E3]].
Qed.

Lemma text_inj rules rules' h h' : pattern_text fmt rules h = pattern_text fmt rules' h' ->
  Forall2 (written_alike fmt) rules rules' /\ h = h'.
Proof.
  unfold pattern_text. intros E. do 4 apply app_inj_l in E. apply rules_inj in E. destruct E as [E1 E].
  split; [exact E1|]. do 3 apply app_inj_l in E. apply app_inj_r in E. exact E.
Qed.

(** ** The code writes that text *)
Variable L : NumLaws N.

Lemma offset_ofN k : (Z.of_nat k <= INT_MAX)%Z -> (s <- @offset N (ofN k) ;; Ok (pad2 s)) = Ok (minus_text k).
Proof.
  intros Hk. unfold offset, ofN. change 0%Z with (Z.of_nat 0). rewrite (law_eq_ofZ _ L) by (unfold INT_MAX in *; lia).
  destruct k as [|k]; [reflexivity|].
  replace (Z.of_nat (S k) =? Z.of_nat 0)%Z with false by lia.
  unfold py_int. rewrite (law_trunc_ofZ _ L) by (unfold INT_MAX in *; lia). cbn [bind].
  replace (show_int (- Z.of_nat (S k))) with ("-" ++ decimal (S k))%string; cycle 1.
  { unfold show_int, decimal. reflexivity. }
  assert (Hd : exists c s, decimal (S k) = String c s).
  { unfold decimal, NilZero.string_of_uint. destruct (N.to_uint (N.of_nat (S k))); cbn; eauto. }
  unfold minus_text. destruct Hd as [c [s ->]]. cbn. unfold pad2. cbn. reflexivity.
Qed.

Lemma str_row_text oi oj (w : N) : (Z.of_nat oi <= INT_MAX)%Z -> (Z.of_nat oj <= INT_MAX)%Z ->
  str_row fmt (ofN oi, ofN oj, w) =
  Ok (if eqb w (ofZ (-1)) then ("     g[" ++ cell_text oi oj ++ "]")%string
      else charge_text fmt (oi, oj, w)).
Proof.
  intros Hi Hj. apply offset_ofN in Hi. apply offset_ofN in Hj. unfold str_row.
  destruct (@offset N (ofN oi)); try discriminate. destruct (@offset N (ofN oj)); try discriminate.
  cbn [bind] in *. injection Hi as ->. injection Hj as ->.
  destruct (eqb w (ofZ (-1))); cbn [append]; [reflexivity|].
  unfold charge_text, weight_text. cbn [fst snd append]. reflexivity.
Qed.

Lemma filter_table k (rules : list (rule N)) q r :
  (Z.of_nat k + Z.of_nat (List.length rules) <= INT_MAX)%Z ->
  nth_error rules q = Some r ->
  filter (fun x => eqb (c0 x) (@ofN N (k + q))) (table_from k rules) = rule_rows (k + q) r.
Proof.
  assert (Hout : forall rs k q, q < k -> (Z.of_nat k + Z.of_nat (List.length rs) <= INT_MAX)%Z ->
     filter (fun x => eqb (c0 x) (@ofN N q)) (table_from k rs) = []).
  { clear - L. intros rs. induction rs as [|r rs IH]; intros k q Hq Hk; [reflexivity|].
    cbn [List.length] in Hk. cbn [table_from]. rewrite filter_app. unfold rule_rows.
    rewrite (filter_rule_id L) by lia. replace (Nat.eqb k q) with false by lia.
    rewrite IH by lia. reflexivity. }
  revert k q. induction rules as [|r0 rs IH]; intros k q Hk Hq; [destruct q; discriminate|].
  cbn [table_from List.length] in *. rewrite filter_app. unfold rule_rows at 1.
  destruct q as [|q].
  - injection Hq as ->. rewrite (filter_rule_id L) by lia.
    replace (Nat.eqb k (k + 0)) with true by lia. rewrite Nat.add_0_r.
    rewrite Hout by lia. rewrite app_nil_r. reflexivity.
  - rewrite (filter_rule_id L) by (pose proof (proj1 (nth_error_Some rs q)); assert (q < List.length rs) by (apply nth_error_Some; cbn in Hq; congruence); lia).
    replace (Nat.eqb k (k + S q)) with false by lia. cbn [app].
    replace (k + S q) with (S k + q) by lia. apply IH; [lia|exact Hq].
Qed.

Lemma rule_rows_fits (rules : list (rule N)) r a : forallb valid_rule rules = true -> fits_int rules ->
  In r rules -> In a (r_add r) ->
  (Z.of_nat (fst (fst a)) <= INT_MAX)%Z /\ (Z.of_nat (snd (fst a)) <= INT_MAX)%Z /\ eqb (snd a) (ofZ (-1)) = false.
Proof.
  intros Hv [_ Hf] Hr Ha. rewrite forallb_forall in Hv. specialize (Hv r Hr).
  rewrite Forall_forall in Hf. specialize (Hf r Hr).
  unfold valid_rule in Hv. apply andb_prop in Hv. destruct Hv as [Hv Hw]. apply andb_prop in Hv. destruct Hv as [_ Hg].
  rewrite forallb_forall in Hw. specialize (Hw a Ha). apply Bool.negb_true_iff in Hw.
  destruct (going_down_le _ _ _ _ Hg Ha). repeat split; try lia; exact Hw.
Qed.

Lemma extract_rule (s : steppat N) rules q r : pattern_rules s rules -> nth_error rules q = Some r ->
  filter (fun x => eqb (c0 x) (@ofN N (S q))) (mx s) = rule_rows (S q) r.
Proof.
  intros [Hm [Hne [Hv Hf]]] Hq. rewrite Hm. unfold table.
  replace (S q) with (1 + q) by lia. apply filter_table; [|exact Hq].
  destruct Hf as [Hf _]. pose proof (table_length_ge 1 rules). unfold table in Hf. unfold INT_MAX in *. destruct rules; [congruence|]. cbn [List.length] in *. lia.
Qed.

Lemma str_rule_text (s : steppat N) rules q r : pattern_rules s rules -> nth_error rules q = Some r ->
  str_rule fmt s (Z.of_nat (S q)) = Ok (rule_text fmt r).
Proof.
  intros Hp Hq. unfold str_rule, extractpattern.
  change (@ofZ N (Z.of_nat (S q))) with (@ofN N (S q)). rewrite (extract_rule _ _ _ _ Hp Hq).
  rewrite rev_involutive. unfold rule_rows. cbn [map c1 c2 c3]. rewrite map_map. cbn [c1 c2 c3].
  destruct Hp as [_ [_ [Hv Hf]]]. assert (Hr : In r rules) by (eapply nth_error_In; exact Hq).
  assert (Hd : (Z.of_nat (r_di r) <= INT_MAX)%Z /\ (Z.of_nat (r_dj r) <= INT_MAX)%Z).
  { destruct Hf as [_ Hf']. rewrite Forall_forall in Hf'. apply Hf'. exact Hr. }
  cbn [mapM]. rewrite str_row_text by tauto. rewrite (law_eq_ofZ _ L) by lia. cbn [Z.eqb Pos.eqb bind].
  assert (E : mapM (str_row fmt) (map (fun x => (ofN (fst (fst x)), ofN (snd (fst x)), snd x)) (r_add r))
              = Ok (map (charge_text fmt) (r_add r))).
  { assert (Ha : forall a, In a (r_add r) -> (Z.of_nat (fst (fst a)) <= INT_MAX)%Z /\ (Z.of_nat (snd (fst a)) <= INT_MAX)%Z /\ eqb (snd a) (ofZ (-1)) = false)
      by (intros a; apply (rule_rows_fits rules); assumption).
    induction (r_add r) as [|a l IH]; [reflexivity|]. cbn [map mapM].
    destruct (Ha a (or_introl eq_refl)) as [H1 [H2 H3]]. rewrite str_row_text by assumption.
    rewrite H3. cbn [bind]. rewrite IH by (intros b Hb; apply Ha; right; exact Hb). cbn [bind].
    destruct a as [[a b] w]. reflexivity. }
  rewrite E. cbn [bind]. rewrite concat_cons. unfold rule_text. rewrite !append_assoc. reflexivity.
Qed.

Lemma rules_numbered {B} (f : Z -> B) (g : rule N -> B) rules :
  (forall q r, nth_error rules q = Some r -> f (Z.of_nat (S q)) = g r) ->
  map f (map (fun k => Z.of_nat k) (seq 1 (List.length rules))) = map g rules.
Proof.
  intros H. rewrite map_map.
  assert (G : forall l k, (forall q r, nth_error l q = Some r -> f (Z.of_nat (k + q)) = g r) ->
    map (fun x => f (Z.of_nat x)) (seq k (List.length l)) = map g l).
  { clear. induction l as [|r l IH]; intros k H; [reflexivity|]. cbn [List.length seq map]. f_equal.
    - specialize (H 0 r eq_refl). rewrite Nat.add_0_r in H. exact H.
    - apply IH. intros q r' Hq. rewrite <- (H (S q) r' Hq). do 2 f_equal. lia. }
  apply G. intros q r Hq. apply H. exact Hq.
Qed.

Theorem str_pattern_text (s : steppat N) rules : pattern_rules s rules ->
  str_pattern fmt s = Ok (pattern_text fmt rules (hint s)).
Proof.
  intros Hp. unfold str_pattern. rewrite (n_patterns_rules L _ _ Hp). cbn [bind]. rewrite Nat2Z.id.
  rewrite (mapM_ok _ (fun p => match str_rule fmt s p with Ok v => v | _ => "" end)); cycle 1.
  { intros p Hin. apply in_map_iff in Hin. destruct Hin as [k [<- Hk]]. apply in_seq in Hk.
    destruct k as [|q]; [lia|]. destruct (nth_error rules q) as [r|] eqn:Hq; [|apply nth_error_None in Hq; lia].
    rewrite (str_rule_text _ _ _ _ Hp Hq). reflexivity. }
  rewrite (rules_numbered _ (rule_text fmt)); [reflexivity|].
  intros q r Hq. rewrite (str_rule_text _ _ _ _ Hp Hq). reflexivity.
Qed.

Theorem str_pattern_inj (s s' : steppat N) rules rules' :
  pattern_rules s rules -> pattern_rules s' rules' -> str_pattern fmt s = str_pattern fmt s' ->
  Forall2 (written_alike fmt) rules rules' /\ hint s = hint s'.
Proof.
  intros Hp Hp' E. rewrite (str_pattern_text _ _ Hp), (str_pattern_text _ _ Hp') in E.
  apply text_inj.
  exact (f_equal (fun o => match o with Ok v => v | _ => "" end) E).
Qed.

(** ** Drawing *)
Lemma draw_rule_shape fmt2 (s : steppat N) rules q r : pattern_rules s rules -> nth_error rules q = Some r ->
  dr_curve (draw_rule fmt2 s (Z.of_nat (S q))) = map drawn_at (shape r) /\
  map fst (dr_labels (draw_rule fmt2 s (Z.of_nat (S q)))) = map (fun a => fmt2 (snd a)) (r_add r).
Proof.
  intros Hp Hq. unfold draw_rule. change (@ofZ N (Z.of_nat (S q))) with (@ofN N (S q)).
  rewrite (extract_rule _ _ _ _ Hp Hq). unfold rule_rows, shape. cbn [dr_curve dr_labels map c1 c2 tl].
  split.
  - f_equal. rewrite !map_map. reflexivity.
  - destruct (r_add r) as [|a l] eqn:E; [reflexivity|]. cbn [List.length map Nat.eqb]. 
    remember (map (fun a : nat * nat * N => Row (ofN (S q)) (ofN (fst (fst a))) (ofN (snd (fst a))) (snd a)) (a :: l)) as rs.
    change (Row (ofN (S q)) (ofN (fst (fst a))) (ofN (snd (fst a))) (snd a)
         :: map (fun a0 => Row (ofN (S q)) (ofN (fst (fst a0))) (ofN (snd (fst a0))) (snd a0)) l) with
      (map (fun a : nat * nat * N => Row (ofN (S q)) (ofN (fst (fst a))) (ofN (snd (fst a))) (snd a)) (a :: l)).
    rewrite <- Heqrs.
    transitivity (map (fun b => fmt2 (c3 b)) rs).
    + clear. generalize (Row (@ofN N (S q)) (ofN (r_di r)) (ofN (r_dj r)) (ofZ (-1))).
      induction rs as [|b rs IH]; intros x; [reflexivity|]. cbn [zip_with map fst snd]. f_equal. apply IH.
    + subst rs. rewrite map_map. reflexivity.
Qed.

Theorem plot_pattern_shapes fmt2 (s : steppat N) rules : pattern_rules s rules ->
  exists drs, plot_pattern fmt2 s = Ok (drs, map (fun r => drawn_at (r_di r, r_dj r)) rules) /\
    Forall2 (fun dr r => dr_curve dr = map drawn_at (shape r) /\
                         map fst (dr_labels dr) = map (fun a => fmt2 (snd a)) (r_add r)) drs rules.
Proof.
  intros Hp. unfold plot_pattern. rewrite (n_patterns_rules L _ _ Hp). cbn [bind]. rewrite Nat2Z.id.
  eexists. split; [do 2 f_equal|].
  - destruct Hp as [-> [_ [Hv Hf]]]. unfold table.
    assert (Ha : forall r, In r rules -> forall a, In a (r_add r) -> eqb (snd a) (ofZ (-1)) = false)
      by (intros r Hr a Hin; apply (rule_rows_fits rules r a); assumption).
    clear Hv Hf. generalize 1. induction rules as [|r rs IH]; intros k; [reflexivity|].
    cbn [table_from map]. rewrite filter_app, map_app, IH by (intros r' Hr'; apply Ha; right; exact Hr').
    unfold rule_rows. cbn [filter c3]. rewrite (law_eq_ofZ _ L) by lia. cbn [Z.eqb Pos.eqb map c1 c2].
    replace (filter _ (map _ (r_add r))) with (@nil (row N)); [reflexivity|].
    specialize (Ha r (or_introl eq_refl)). induction (r_add r) as [|a l IHl]; [reflexivity|].
    cbn [map filter c3]. rewrite (Ha a (or_introl eq_refl)). apply IHl. intros b Hb; apply Ha; right; exact Hb.
  - assert (Hd : forall q r, nth_error rules q = Some r ->
      dr_curve (draw_rule fmt2 s (Z.of_nat (1 + q))) = map drawn_at (shape r) /\
      map fst (dr_labels (draw_rule fmt2 s (Z.of_nat (1 + q)))) = map (fun a => fmt2 (snd a)) (r_add r))
      by (intros q r; apply (draw_rule_shape fmt2 s rules); exact Hp).
    clear Hp. revert Hd. generalize 1. induction rules as [|r rs IH]; intros k Hd; [constructor|].
    cbn [List.length seq map]. constructor.
    + specialize (Hd 0 r eq_refl). rewrite Nat.add_0_r in Hd. exact Hd.
    + apply IH. intros q r' Hq. specialize (Hd (S q) r' Hq). replace (S k + q) with (k + S q) by lia. exact Hd.
Qed.
End S.
