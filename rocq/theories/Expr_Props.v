(** C112: how the text of expressions is understood. *)
From Coq Require Import List Bool ZArith Ascii String Reals Lia Lra.
From Verif Require Import Base Constr_Model Expr_Model Expr_Spec.
Import ListNotations.
Local Open Scope string_scope.

Lemma clean_cons bad c t : clean bad (String c t) <-> (~ In c (list_ascii_of_string bad)) /\ clean bad t.
Proof.
  unfold clean; cbn. split.
  - intros H. split; [intros I; apply (H c I); auto|intros d I J; apply (H d I); auto].
  - intros [H1 H2] d I [->|J]; [auto|eapply H2; eauto].
Qed.
Lemma clean_sub bad bad' s : (forall c, In c (list_ascii_of_string bad') -> In c (list_ascii_of_string bad)) -> clean bad s -> clean bad' s.
Proof. intros H C c I. apply C; auto. Qed.
Lemma loas_app a b : list_ascii_of_string (a ++ b) = (list_ascii_of_string a ++ list_ascii_of_string b)%list.
Proof. induction a; cbn; congruence. Qed.
Lemma clean_app bad a b : clean bad (a ++ b) <-> clean bad a /\ clean bad b.
Proof.
  unfold clean. split.
  - intros H. split; intros c I J; apply (H c I); rewrite loas_app; apply in_or_app; auto.
  - intros [A B] c I. rewrite loas_app. intros J. apply in_app_or in J as [J|J]; [eapply A|eapply B]; eauto.
Qed.
Lemma clean_by bad s : forallb (fun c => negb (existsb (Ascii.eqb c) (list_ascii_of_string bad))) (list_ascii_of_string s) = true -> clean bad s.
Proof.
  intros H c I J. rewrite forallb_forall in H. specialize (H c J). apply negb_true_iff in H.
  assert (E : existsb (Ascii.eqb c) (list_ascii_of_string bad) = true) by (apply existsb_exists; exists c; split; [exact I|apply Ascii.eqb_refl]). congruence.
Qed.
Lemma none_by (p : ascii -> bool) s : forallb (fun c => negb (p c)) (list_ascii_of_string s) = true -> forall c, In c (list_ascii_of_string s) -> p c = false.
Proof. intros H c I. rewrite forallb_forall in H. apply negb_true_iff. auto. Qed.
Ltac lit := apply clean_by; reflexivity.
Lemma sapp_assoc (a b c : string) : (a ++ b) ++ c = a ++ (b ++ c).
Proof. induction a; cbn; congruence. Qed.
Lemma sapp_nil (a : string) : a ++ "" = a.
Proof. induction a; cbn; congruence. Qed.

(** ** split *)
Lemma split_clean sep s : clean (String sep "") s -> split sep s = [s].
Proof.
  induction s as [|c t IH]; [reflexivity|]. intros H. apply clean_cons in H as [H1 H2]. cbn [split].
  destruct (Ascii.eqb_spec c sep) as [->|N]; [exfalso; apply H1; left; reflexivity|]. rewrite IH; auto.
Qed.
Lemma split_sep sep s t : clean (String sep "") s -> split sep (s ++ String sep t) = s :: split sep t.
Proof.
  induction s as [|c u IH]; intros H; cbn [append split].
  - rewrite Ascii.eqb_refl. reflexivity.
  - apply clean_cons in H as [H1 H2]. destruct (Ascii.eqb_spec c sep) as [->|N]; [exfalso; apply H1; left; reflexivity|]. rewrite IH; auto.
Qed.
Lemma split_ne sep s : exists x l, split sep s = x :: l.
Proof. induction s as [|c t (x & l & IH)]; cbn; [eauto|]. destruct (Ascii.eqb c sep); [eauto|]. rewrite IH. cbn. eauto. Qed.

(** ** re_split *)
Definition none (p : ascii -> bool) (s : string) : Prop := forall c, In c (list_ascii_of_string s) -> p c = false.
Lemma none_cons p c t : none p (String c t) <-> p c = false /\ none p t.
Proof. unfold none; cbn. split; [intros H; split; auto|intros [A B] d [->|I]; auto]. Qed.
Lemma none_app p a b : none p a -> none p b -> none p (a ++ b).
Proof. unfold none. intros A B c. rewrite loas_app. intros I. apply in_app_or in I as [I|I]; auto. Qed.
Lemma re_split_none p s : none p s -> re_split p s = [s].
Proof. induction s as [|c t IH]; [reflexivity|]. intros H. apply none_cons in H as [H1 H2]. cbn. rewrite H1, IH; auto. Qed.
Lemma re_split_sep p s c t : none p s -> p c = true -> starts p t = false -> re_split p (s ++ String c t) = s :: re_split p t.
Proof.
  intros H Hc Hs. induction s as [|d u IH]; cbn [append re_split].
  - rewrite Hc, Hs. reflexivity.
  - apply none_cons in H as [H1 H2]. rewrite H1, IH; auto.
Qed.
Lemma clean_paren s : clean "()" s -> none paren s.
Proof.
  intros H c I. unfold paren. destruct (Ascii.eqb_spec c "(") as [->|]; [exfalso; apply (H "("%char); cbn; auto|].
  destruct (Ascii.eqb_spec c ")") as [->|]; [exfalso; apply (H ")"%char); cbn; auto|]. reflexivity.
Qed.
Lemma clean_colon s : clean ":|" s -> none colon_bar s.
Proof.
  intros H c I. unfold colon_bar. destruct (Ascii.eqb_spec c ":") as [->|]; [exfalso; apply (H ":"%char); cbn; auto|].
  destruct (Ascii.eqb_spec c "|") as [->|]; [exfalso; apply (H "|"%char); cbn; auto|]. reflexivity.
Qed.
Lemma starts_none p s t : none p s -> s <> "" -> starts p (s ++ t) = false.
Proof. destruct s as [|c u]; [congruence|]. intros H _. apply none_cons in H as [H _]. exact H. Qed.

(** ** brackets *)
Lemma until_close_at s t : clean (String newline "]") s -> until_close (s ++ "]" ++ t) = Some s.
Proof.
  induction s as [|c u IH]; intros H; [reflexivity|]. apply clean_cons in H as [H1 H2]. cbn [append until_close].
  destruct (Ascii.eqb_spec c "]") as [->|]; [exfalso; apply H1; cbn; auto|].
  destruct (Ascii.eqb_spec c newline) as [->|]; [exfalso; apply H1; cbn; auto|]. cbn [append] in IH. rewrite IH; auto.
Qed.
Lemma first_bracket_at a s t : clean "[" a -> clean (String newline "]") s -> first_bracket (a ++ "[" ++ s ++ "]" ++ t) = Some s.
Proof.
  intros Ha Hs. induction a as [|c u IH].
  - cbn [append first_bracket Ascii.eqb Bool.eqb]. change (String "]" t) with ("]" ++ t). rewrite until_close_at; auto.
  - apply clean_cons in Ha as [H1 H2]. cbn [append first_bracket]. destruct (Ascii.eqb_spec c "[") as [->|]; [exfalso; apply H1; cbn; auto|]. apply IH; auto.
Qed.
Lemma first_bracket_none s : clean "[" s -> first_bracket s = None.
Proof.
  induction s as [|c t IH]; [reflexivity|]. intros H. apply clean_cons in H as [H1 H2]. cbn.
  destruct (Ascii.eqb_spec c "[") as [->|]; [exfalso; apply H1; cbn; auto|]. auto.
Qed.

Definition body (w : written) : string := w_coef w ++ "*[" ++ label w ++ "]".
Ltac sub H := apply (clean_sub _ _ _) with (2 := H); cbn; intuition.
Lemma label_clean w : well_written w -> clean (String newline "()=]") (label w).
Proof.
  intros (_ & F & K & _ & E). unfold label.
  repeat (apply clean_app; split); try (sub F); try (sub K); try (sub E); lit.
Qed.
Lemma py_int_ne s v : py_int s = Some v -> s <> "".
Proof. intros H ->. discriminate. Qed.
Lemma read_body tf w t neg : well_written w -> means tf neg w t -> read_term tf neg (body w) = inr t.
Proof.
  intros Hw (Pi & Pj & Hk & Hl & c & Hc & Ht). pose proof (label_clean w Hw) as L. destruct Hw as (C & F & K & Kne & E). unfold read_term.
  assert (B : first_bracket (body w) = Some (label w)).
  { unfold body. replace (w_coef w ++ "*[" ++ label w ++ "]") with ((w_coef w ++ "*") ++ "[" ++ label w ++ "]" ++ "") by (rewrite sapp_assoc; reflexivity).
    apply first_bracket_at; [apply clean_app; split; [sub C|lit]|sub L]. }
  rewrite B. cbv zeta.
  assert (S : re_split colon_bar (label w) = ["factor"; w_f w; w_kind w; w_e w]).
  { unfold label. change ("factor:" ++ w_f w ++ "|" ++ w_kind w ++ ":" ++ w_e w) with ("factor" ++ String ":" (w_f w ++ String "|" (w_kind w ++ String ":" (w_e w)))).
    assert (NF : none colon_bar (w_f w)) by (apply clean_colon; sub F).
    assert (NK : none colon_bar (w_kind w)) by (apply clean_colon; sub K).
    assert (NE : none colon_bar (w_e w)) by (apply clean_colon; sub E).
    rewrite re_split_sep; [|exact (none_by colon_bar "factor" eq_refl)|reflexivity|apply starts_none; [exact NF|eapply py_int_ne; eauto]].
    rewrite re_split_sep; [|exact NF|reflexivity|apply starts_none; auto].
    rewrite re_split_sep; [|exact NK|reflexivity|rewrite <- (sapp_nil (w_e w)); apply starts_none; [exact NE|eapply py_int_ne; eauto]].
    rewrite re_split_none by exact NE. reflexivity. }
  rewrite S. cbn [nth_error nth]. rewrite Pi, Pj.
  assert (H : hd "" (split "*" (body w)) = w_coef w).
  { unfold body. change (w_coef w ++ "*[" ++ label w ++ "]") with (w_coef w ++ String "*" ("[" ++ label w ++ "]")). rewrite split_sep by (sub C). reflexivity. }
  rewrite H, Hc. destruct t as [lb i j k co]; cbn in *. subst. f_equal. f_equal. destruct neg; lra.
Qed.
Lemma body_clean w : well_written w -> clean "()=" (body w).
Proof.
  intros H. pose proof (label_clean w H) as L. destruct H as (C & _). unfold body.
  apply clean_app; split; [sub C|]. apply clean_app; split; [lit|]. apply clean_app; split; [sub L|lit].
Qed.
Lemma body_long w : (1 < String.length (body w))%nat.
Proof.
  unfold body. assert (A : forall a b, String.length (a ++ b) = (String.length a + String.length b)%nat) by (induction a; cbn; intros; [reflexivity|rewrite IHa; reflexivity]).
  rewrite !A. cbn. lia.
Qed.
Lemma write_eq w t : write w ++ t = w_op w ++ String "(" (body w ++ String ")" t).
Proof. unfold write, body. rewrite sapp_assoc. cbn [append]. rewrite !sapp_assoc. cbn [append]. rewrite ?sapp_assoc. reflexivity. Qed.

(** pieces of a text in the documented form *)
Fixpoint pieces (ws : list written) : list string :=
  match ws with [] => [] | w :: l => w_op w :: body w :: pieces l end.
Lemma split_written ws tail : (forall w, In w ws -> well_written w /\ clean "()=" (w_op w)) ->
  (forall w l, ws = w :: l -> forall w', In w' l -> w_op w' <> "") -> clean "()=" tail ->
  re_split paren (write_all ws ++ tail) = (pieces ws ++ [tail])%list.
Proof.
  intros Hw Ho Ht. induction ws as [|w l IH].
  - cbn. apply re_split_none. apply clean_paren. sub Ht.
  - cbn [write_all pieces]. rewrite sapp_assoc, write_eq.
    destruct (Hw w (or_introl eq_refl)) as [W O].
    assert (NB : none paren (body w)) by (apply clean_paren; pose proof (body_clean w W) as B; sub B).
    assert (BE : body w <> "") by (intros X; pose proof (body_long w) as Lg; rewrite X in Lg; cbn in Lg; lia).
    rewrite re_split_sep; [|apply clean_paren; sub O|reflexivity|apply starts_none; auto].
    rewrite re_split_sep; [|exact NB|reflexivity|].
    + rewrite IH; [reflexivity|intros; apply Hw; right; auto|]. intros w1 l1 -> w' I. apply (Ho w (w1 :: l1) eq_refl). right; auto.
    + destruct l as [|w1 l1].
      * cbn. destruct tail as [|c u]; [reflexivity|]. apply clean_cons in Ht as [Ht _]. cbn. apply (clean_paren (String c "")); [|left; reflexivity].
        intros d I J. cbn in J. destruct J as [<-|[]]. apply Ht. cbn in *; intuition.
      * cbn [write_all]. rewrite sapp_assoc, write_eq. apply starts_none; [|apply (Ho w (w1 :: l1) eq_refl w1 (or_introl eq_refl))].
        apply clean_paren. pose proof (proj2 (Hw w1 (or_intror (or_introl eq_refl)))) as O1. sub O1.
Qed.

Lemma read_pieces tf : forall ws ts neg, (forall w, In w ws -> well_written w /\ operator (w_op w)) ->
  Forall2 (fun w t => means tf (String.eqb (w_op w) "-") w t) ws ts -> read_terms tf neg (pieces ws) = inr ts.
Proof.
  intros ws ts neg Hw F. revert neg Hw. induction F as [|w t ws ts M F IH]; intros neg Hw; [reflexivity|].
  destruct (Hw w (or_introl eq_refl)) as [W [O1 _]]. cbn [pieces read_terms]. rewrite O1. change (1 <? 1)%nat with false. cbv iota.
  pose proof (body_long w) as Lg. apply Nat.ltb_lt in Lg. rewrite Lg. rewrite (read_body tf w t _ W M). rewrite IH; [reflexivity|]. intros; apply Hw; right; auto.
Qed.
Lemma read_left tf w ws t ts tail : (forall w', In w' (w :: ws) -> well_written w') -> (forall w', In w' ws -> operator (w_op w')) ->
  clean "()=" (w_op w) -> clean "()=" tail -> means tf false w t -> Forall2 (fun w t => means tf (String.eqb (w_op w) "-") w t) ws ts ->
  read_terms tf false (inner (re_split paren (write_all (w :: ws) ++ tail))) = inr (t :: ts).
Proof.
  intros Hw Ho Hl Ht M F. rewrite split_written.
  - cbn [pieces]. unfold inner. cbn [tl app]. change (body w :: pieces ws ++ [tail])%list with ((body w :: pieces ws) ++ [tail])%list. rewrite removelast_last.
    cbn [read_terms]. pose proof (body_long w) as Lg. apply Nat.ltb_lt in Lg. rewrite Lg. rewrite (read_body tf w t _ (Hw w (or_introl eq_refl)) M).
    rewrite (read_pieces tf ws ts); auto. intros w' I. split; [apply Hw; right; auto|auto].
  - intros w' I. split; [auto|]. destruct I as [<-|I]; [auto|apply Ho; auto].
  - intros w0 l E w' I. injection E as <- <-. intros X. destruct (Ho w' I) as [L _]. rewrite X in L. discriminate.
  - exact Ht.
Qed.
Lemma hd_cons_split sep s t : clean (String sep "") s -> (t = "" \/ exists u, t = String sep u) -> hd "" (split sep (s ++ t)) = s.
Proof. intros C [-> | (u & ->)]; [rewrite sapp_nil, split_clean; auto|rewrite split_sep; auto]. Qed.
Lemma read_right rhs dq more : clean "=," rhs -> clean "=," dq -> (more = "" \/ exists u, more = String "," u \/ more = String "=" u) ->
  nth_error (split "," (hd "" (split "=" (rhs ++ "," ++ dq ++ more)))) 1 = Some dq.
Proof.
  intros Hr Hq Hm.
  assert (P : exists t, hd "" (split "=" (rhs ++ "," ++ dq ++ more)) = rhs ++ "," ++ dq ++ t /\ (t = "" \/ exists u, t = String "," u)).
  { assert (C0 : clean "=" (rhs ++ "," ++ dq)).
    { repeat (apply clean_app; split); [sub Hr|lit|sub Hq]. }
    replace (rhs ++ "," ++ dq ++ more) with ((rhs ++ "," ++ dq) ++ more) by (rewrite !sapp_assoc; reflexivity).
    destruct Hm as [-> | (u & [-> | ->])].
    - exists "". rewrite sapp_nil, split_clean by exact C0. rewrite !sapp_nil. auto.
    - assert (Q : exists v, hd "" (split "=" ((rhs ++ "," ++ dq) ++ String "," u)) = (rhs ++ "," ++ dq) ++ String "," v).
      { induction (rhs ++ "," ++ dq) as [|c s IH].
        - cbn [append split Ascii.eqb Bool.eqb]. destruct (split_ne "=" u) as (x & l & ->). cbn. eauto.
        - apply clean_cons in C0 as [C1 C2]. cbn [append split]. destruct (Ascii.eqb_spec c "=") as [->|]; [exfalso; apply C1; cbn; auto|].
          destruct (IH C2) as [v IHv]. destruct (split_ne "=" (s ++ String "," u)) as (x & l & E). rewrite E in *. cbn [hd cons_head] in *. exists v. rewrite IHv. reflexivity. }
      destruct Q as [v Q]. exists (String "," v). rewrite Q. split; [rewrite !sapp_assoc; reflexivity|eauto].
    - exists "". rewrite split_sep by exact C0. cbn [hd]. rewrite !sapp_nil. auto. }
  destruct P as (t & -> & Ht). change (rhs ++ "," ++ dq ++ t) with (rhs ++ String "," (dq ++ t)). rewrite split_sep by (sub Hr). cbn [nth_error].
  destruct Ht as [-> | (u & ->)]; [rewrite sapp_nil, split_clean by (sub Hq)|rewrite split_sep by (sub Hq)]; reflexivity.
Qed.
Lemma write_all_clean ws tail : (forall w, In w ws -> well_written w /\ clean "()=" (w_op w)) -> clean "()=" tail -> clean "=" (write_all ws ++ tail).
Proof.
  intros Hw Ht. induction ws as [|w l IH]; [cbn; sub Ht|]. cbn [write_all]. rewrite sapp_assoc, write_eq. destruct (Hw w (or_introl eq_refl)) as [W O].
  pose proof (body_clean w W) as B.
  change (String "(" (body w ++ String ")" (write_all l ++ tail))) with ("(" ++ body w ++ ")" ++ (write_all l ++ tail)).
  apply clean_app; split; [sub O|]. apply clean_app; split; [lit|]. apply clean_app; split; [sub B|]. apply clean_app; split; [lit|].
  apply IH. intros; apply Hw; right; auto.
Qed.
Lemma read_text tf left rhs dq more d : clean "=" left -> clean "=," rhs -> clean "=," dq ->
  (more = "" \/ exists u, more = String "," u \/ more = String "=" u) -> tf dq = Some d ->
  read tf (left ++ "=" ++ rhs ++ "," ++ dq ++ more) =
  match read_terms tf false (inner (re_split paren left)) with inl x => inl x | inr ts => inr (ts, d) end.
Proof.
  intros Hl Hr Hq Hm Hd. unfold read. cbv zeta. change ("=" ++ rhs ++ "," ++ dq ++ more) with (String "=" (rhs ++ "," ++ dq ++ more)).
  rewrite split_sep by exact Hl. pose proof (read_right rhs dq more Hr Hq Hm) as R.
  destruct (split_ne "=" (rhs ++ "," ++ dq ++ more)) as (x & l & E). rewrite E in *. cbn [nth_error hd] in *. rewrite R, Hd. reflexivity.
Qed.

(** An expression in the documented form is understood as its terms in order, each
    with the coefficient written, negated exactly if the character before its
    parenthesis is a minus sign -- except before the first term: what stands there,
    what stands after the last parenthesis, the right-hand side and everything after
    the dQ limit have no effect. *)
Theorem C112_documented_form :
  forall (to_float : string -> option R) (first : written) (others : list written) (t : term) (ts : list term) (tail rhs dq more : string) (d : R),
    (forall w, In w (first :: others) -> well_written w) -> (forall w, In w others -> operator (w_op w)) ->
    clean "()=" (w_op first) -> clean "()=" tail -> clean "=," rhs -> clean "=," dq ->
    (more = "" \/ exists u, more = String "," u \/ more = String "=" u) ->
    to_float dq = Some d ->
    means to_float false first t -> Forall2 (fun w t => means to_float (String.eqb (w_op w) "-") w t) others ts ->
    read to_float (write_all (first :: others) ++ tail ++ "=" ++ rhs ++ "," ++ dq ++ more) = inr (t :: ts, d).
Proof.
  intros tf w ws t ts tail rhs dq more d Hw Ho Hl Ht Hr Hq Hm Hd M F.
  replace (write_all (w :: ws) ++ tail ++ "=" ++ rhs ++ "," ++ dq ++ more) with ((write_all (w :: ws) ++ tail) ++ "=" ++ rhs ++ "," ++ dq ++ more) by (rewrite !sapp_assoc; reflexivity).
  rewrite (read_text tf _ rhs dq more d); auto.
  - rewrite (read_left tf w ws t ts tail); auto.
  - apply write_all_clean; auto. intros w' I. split; [auto|]. destruct I as [<-|I]; [auto|apply Ho; auto].
Qed.
Print Assumptions C112_documented_form.

(** The hypotheses are met: the first example of the docstring (279), with and
    without a leading minus sign. *)
Definition some_float (s : string) : option R :=
  if String.eqb s "0.66" then Some (66 / 100)%R else if String.eqb s "4.2" then Some (42 / 10)%R else if String.eqb s "250" then Some 250%R else None.
Ltac clean_tac := intros ?c ?I ?J; cbn in *; intuition (subst; discriminate).
Example C112_instance :
  read some_float "(0.66*[factor:1|feature:2])-(4.2*[factor:2|feature:4])=0,250" =
    inr ([mkTerm "factor:1|feature:2" 1 2 "feature" (66 / 100); mkTerm "factor:2|feature:4" 2 4 "feature" (- (42 / 10))], 250%R).
Proof.
  apply (C112_documented_form some_float (mkW "" "0.66" "1" "feature" "2") [mkW "-" "4.2" "2" "feature" "4"] (mkTerm "factor:1|feature:2" 1 2 "feature" (66 / 100)) [mkTerm "factor:2|feature:4" 2 4 "feature" (- (42 / 10))] "" "0" "250" "" 250%R).
  - intros w [<-|[<-|[]]]; unfold well_written; cbn [w_coef w_f w_kind w_e]; repeat split; try discriminate; clean_tac.
  - intros w [<-|[]]. split; [reflexivity|clean_tac].
  - clean_tac.
  - clean_tac.
  - clean_tac.
  - clean_tac.
  - auto.
  - reflexivity.
  - repeat split. exists (66 / 100)%R. split; reflexivity.
  - constructor; [|constructor]. repeat split. exists (42 / 10)%R. split; reflexivity.
Qed.

(** A minus sign before the first term does not count. *)
Theorem C112_leading_minus_refuted :
  ~ (forall (to_float : string -> option R) (w : written) (c dQ : R) ts d, w_op w = "-" -> well_written w -> to_float (w_coef w) = Some c -> to_float "250" = Some dQ ->
       read to_float (write w ++ "=0,250") = inr (ts, d) -> map t_coef ts = [(- c)%R]).
Proof.
  intros H. specialize (H some_float (mkW "-" "0.66" "1" "feature" "2") (66 / 100)%R 250%R
    [mkTerm "factor:1|feature:2" 1 2 "feature" (66 / 100)] 250%R eq_refl).
  assert (X : map t_coef [mkTerm "factor:1|feature:2" 1 2 "feature" (66 / 100)] = [(- (66 / 100))%R]).
  { apply H; try reflexivity.
    - unfold well_written; cbn [w_coef w_f w_kind w_e]; repeat split; try discriminate; clean_tac.
    - apply (C112_documented_form some_float (mkW "-" "0.66" "1" "feature" "2") [] (mkTerm "factor:1|feature:2" 1 2 "feature" (66 / 100)) [] "" "0" "250" "" 250%R);
        try (clean_tac; fail); auto.
      + intros w [<-|[]]; unfold well_written; cbn [w_coef w_f w_kind w_e]; repeat split; try discriminate; clean_tac.
      + intros w [].
      + repeat split. exists (66 / 100)%R. split; reflexivity. }
  cbn in X. injection X as X. lra.
Qed.
Print Assumptions C112_leading_minus_refuted.

(** The terms of C66 to C69: what is understood is the signed sum of the tokens. *)
Theorem C112_terms_are_tokens :
  forall (to_float : string -> option R) (first : written) (others : list written) (t : term) (ts : list term),
    means to_float false first t -> Forall2 (fun w t => means to_float (String.eqb (w_op w) "-") w t) others ts ->
    exists c cs, to_float (w_coef first) = Some c /\ Forall2 (fun w c => to_float (w_coef w) = Some c) others cs /\
      map (fun u => (cell u, t_coef u)) (t :: ts) =
      signed_terms false (TTerm c (cell t) :: flat_map (fun p => [if String.eqb (w_op (fst (fst p))) "-" then TMinus else TSep; TTerm (snd p) (cell (snd (fst p)))]) (combine (combine others ts) cs)).
Proof.
  intros tf w ws t ts (_ & _ & _ & _ & c & Hc & Ht) F. exists c.
  assert (G : exists cs, Forall2 (fun w c => tf (w_coef w) = Some c) ws cs /\ forall neg,
     map (fun u => (cell u, t_coef u)) ts = signed_terms neg (flat_map (fun p => [if String.eqb (w_op (fst (fst p))) "-" then TMinus else TSep; TTerm (snd p) (cell (snd (fst p)))]) (combine (combine ws ts) cs))).
  { induction F as [|w' t' ws ts (_ & _ & _ & _ & c' & Hc' & Ht') F (cs & F' & IH)]; [exists []; split; [constructor|reflexivity]|].
    exists (c' :: cs). split; [constructor; auto|]. intros neg. cbn [map combine flat_map app fst snd].
    destruct (String.eqb (w_op w') "-"); cbn [signed_terms]; rewrite Ht'; rewrite <- IH; f_equal; f_equal; lra. }
  destruct G as (cs & F' & G). exists cs. repeat split; auto. cbn [map signed_terms]. rewrite Ht, <- G. f_equal. f_equal. lra.
Qed.
Print Assumptions C112_terms_are_tokens.

(** Between two parentheses more than one character raises, unless it holds a
    bracket: in particular spaces around the sign. *)
Theorem C112_spaces_raise :
  forall (to_float : string -> option R) (first : written) (good : list written) (bad : written) (others : list written) (t : term) (ts : list term) (rhs dq : string) (d : R),
    (forall w, In w (first :: good ++ bad :: others) -> well_written w /\ clean "()=" (w_op w)) ->
    (forall w, In w good -> operator (w_op w)) -> (forall w, In w others -> w_op w <> "") ->
    (1 < String.length (w_op bad))%nat -> clean "[" (w_op bad) ->
    clean "=," rhs -> clean "=," dq -> to_float dq = Some d ->
    means to_float false first t -> Forall2 (fun w t => means to_float (String.eqb (w_op w) "-") w t) good ts ->
    read to_float (write_all (first :: good ++ bad :: others) ++ "=" ++ rhs ++ "," ++ dq) = inl IndexErr.
Proof.
  intros tf w good bad others t ts rhs dq d Hw Hg Hne Hb Hbr Hr Hq Hd M F.
  rewrite <- (sapp_nil dq). rewrite (read_text tf _ rhs dq "" d); auto.
  2: { pose proof (write_all_clean (w :: good ++ bad :: others) "" Hw) as C. rewrite sapp_nil in C. apply C. clean_tac. }
  assert (R : read_terms tf false (inner (re_split paren (write_all (w :: good ++ bad :: others)))) = inl IndexErr); [|rewrite R; reflexivity].
  rewrite <- (sapp_nil (write_all _)). rewrite split_written; [|exact Hw| |clean_tac].
  - cbn [pieces]. unfold inner. cbn [tl app]. change (body w :: pieces (good ++ bad :: others) ++ [""])%list with ((body w :: pieces (good ++ bad :: others)) ++ [""])%list. rewrite removelast_last.
    cbn [read_terms]. pose proof (body_long w) as Lg. apply Nat.ltb_lt in Lg. rewrite Lg. rewrite (read_body tf w t _ (proj1 (Hw w (or_introl eq_refl))) M).
    assert (G : forall neg, read_terms tf neg (pieces (good ++ bad :: others)) = inl IndexErr); [|rewrite G; reflexivity].
    clear M Lg t. assert (Hw' : forall w', In w' good -> well_written w') by (intros; apply Hw; right; apply in_or_app; auto). clear Hw.
    induction F as [|w1 t1 g1 ts1 M1 F IH]; intros neg.
    + cbn [app pieces read_terms]. apply Nat.ltb_lt in Hb. rewrite Hb. unfold read_term. rewrite first_bracket_none by exact Hbr. reflexivity.
    + cbn [app pieces read_terms]. destruct (Hg w1 (or_introl eq_refl)) as [L1 _]. rewrite L1. change (1 <? 1)%nat with false. cbv iota.
      pose proof (body_long w1) as Lg. apply Nat.ltb_lt in Lg. rewrite Lg. rewrite (read_body tf w1 t1 _ (Hw' w1 (or_introl eq_refl)) M1).
      rewrite IH; [reflexivity|intros; apply Hg; right; auto|intros; apply Hw'; right; auto].
  - intros w0 l E w' I. injection E as <- <-. apply in_app_or in I as [I|[<-|I]]; [|intros X; rewrite X in Hb; cbn in Hb; lia|auto].
    intros X. destruct (Hg w' I) as [L _]. rewrite X in L. discriminate.
Qed.
Print Assumptions C112_spaces_raise.

Example C112_spaces_instance :
  read some_float "(0.66*[factor:1|feature:2]) - (4.2*[factor:2|feature:4])=0,250" = inl IndexErr.
Proof.
  apply (C112_spaces_raise some_float (mkW "" "0.66" "1" "feature" "2") [] (mkW " - " "4.2" "2" "feature" "4") []
           (mkTerm "factor:1|feature:2" 1 2 "feature" (66 / 100)) [] "0" "250" 250%R); try (intros w []; fail); try (clean_tac; fail); auto.
  - intros w [<-|[<-|[]]]; unfold well_written; cbn [w_op w_coef w_f w_kind w_e]; repeat split; try discriminate; clean_tac.
  - cbn; lia.
  - repeat split. exists (66 / 100)%R. split; reflexivity.
Qed.

(** Without parentheses no term is understood, and nothing is reported. *)
Theorem C112_no_parentheses :
  forall (to_float : string -> option R) (left rhs dq : string) (d : R),
    clean "()=" left -> clean "=," rhs -> clean "=," dq -> to_float dq = Some d ->
    read to_float (left ++ "=" ++ rhs ++ "," ++ dq) = inr ([], d).
Proof.
  intros tf left rhs dq d Hl Hr Hq Hd. rewrite <- (sapp_nil dq). rewrite (read_text tf left rhs dq "" d); auto; [|sub Hl].
  rewrite re_split_none by (apply clean_paren; sub Hl). reflexivity.
Qed.
Print Assumptions C112_no_parentheses.
Example C112_no_parentheses_instance : read some_float "0.66*[factor:1|feature:2]=0,250" = inr ([], 250%R).
Proof. apply (C112_no_parentheses some_float "0.66*[factor:1|feature:2]" "0" "250" 250%R); try (clean_tac; fail); reflexivity. Qed.

(** Without an equals sign, or without a comma after it, reading raises. *)
Theorem C112_incomplete_raises :
  forall (to_float : string -> option R),
    (forall s, clean "=" s -> read to_float s = inl IndexErr) /\
    (forall left rhs more, clean "=" left -> clean "=," rhs -> (more = "" \/ exists u, more = String "=" u) -> read to_float (left ++ "=" ++ rhs ++ more) = inl IndexErr).
Proof.
  intros tf. split.
  - intros s H. unfold read. rewrite split_clean by exact H. reflexivity.
  - intros left rhs more Hl Hr Hm. unfold read. cbv zeta. change ("=" ++ rhs ++ more) with (String "=" (rhs ++ more)). rewrite split_sep by exact Hl.
    assert (E : hd "" (split "=" (rhs ++ more)) = rhs) by (apply hd_cons_split; [sub Hr|exact Hm]).
    destruct (split_ne "=" (rhs ++ more)) as (x & l & Q). rewrite Q in *. cbn [hd nth_error] in *. subst x. rewrite split_clean by (sub Hr). reflexivity.
Qed.
Print Assumptions C112_incomplete_raises.
Example C112_incomplete_instance : read some_float "(0.66*[factor:1|feature:2])=0" = inl IndexErr.
Proof. apply (proj2 (C112_incomplete_raises some_float) "(0.66*[factor:1|feature:2])" "0" ""); [clean_tac|clean_tac|auto]. Qed.

(** ** Elements go by the text of their label *)
Lemma map_add_labels mp t i : map e_label (map_add mp t i) = (map e_label mp ++ if existsb (String.eqb (t_label t)) (map e_label mp) then [] else [t_label t])%list.
Proof.
  induction mp as [|e l IH]; [reflexivity|]. cbn [map_add map existsb]. rewrite (String.eqb_sym (t_label t)).
  destruct (String.eqb (e_label e) (t_label t)); cbn [map e_label orb]; [rewrite app_nil_r; reflexivity|rewrite IH; reflexivity].
Qed.
Definition good (l : list (term * nat)) (mp : list entry) : Prop :=
  NoDup (map e_label mp) /\
  (forall e, In e mp -> e_coefs e = occurrences (e_label e) l /\ exists p, In p l /\ t_label (fst p) = e_label e /\ e_i e = t_i (fst p) /\ e_j e = t_j (fst p) /\ e_kind e = t_kind (fst p)) /\
  (forall p, In p l -> In (t_label (fst p)) (map e_label mp)).
Lemma occ_snoc lab l t i : occurrences lab (l ++ [(t, i)]) = (occurrences lab l ++ if String.eqb (t_label t) lab then [(t_coef t, i)] else [])%list.
Proof. unfold occurrences. rewrite filter_app, map_app. cbn. destruct (String.eqb (t_label t) lab); reflexivity. Qed.
Lemma occ_none lab l : ~ In lab (map (fun p => t_label (fst p)) l) -> occurrences lab l = [].
Proof.
  unfold occurrences. induction l as [|p l IH]; [reflexivity|]. cbn. intros H. destruct (String.eqb_spec (t_label (fst p)) lab); [tauto|]. apply IH. tauto.
Qed.
Lemma good_add l mp t i : good l mp -> good (l ++ [(t, i)]) (map_add mp t i).
Proof.
  intros (N & E & P).
  assert (Emem : existsb (String.eqb (t_label t)) (map e_label mp) = true <-> In (t_label t) (map e_label mp)).
  { rewrite existsb_exists. split; [intros (x & I & H); apply String.eqb_eq in H as ->; exact I|intros I; eexists; split; [exact I|apply String.eqb_refl]]. }
  split; [|split].
  - rewrite map_add_labels. destruct (existsb _ _) eqn:B; [rewrite app_nil_r; exact N|]. apply (Permutation.Permutation_NoDup (Permutation.Permutation_cons_append _ _)). constructor; [|exact N].
    intros I. apply Emem in I. congruence.
  - assert (G : forall mp0, (forall e, In e mp0 -> e_coefs e = occurrences (e_label e) l /\ exists p, In p l /\ t_label (fst p) = e_label e /\ e_i e = t_i (fst p) /\ e_j e = t_j (fst p) /\ e_kind e = t_kind (fst p)) ->
        NoDup (map e_label mp0) -> (In (t_label t) (map (fun p => t_label (fst p)) l) -> In (t_label t) (map e_label mp0)) ->
        forall e, In e (map_add mp0 t i) -> e_coefs e = occurrences (e_label e) (l ++ [(t, i)]) /\ exists p, In p (l ++ [(t, i)]) /\ t_label (fst p) = e_label e /\ e_i e = t_i (fst p) /\ e_j e = t_j (fst p) /\ e_kind e = t_kind (fst p)).
    { induction mp0 as [|e0 mp0 IH]; intros E0 N0 Q e I.
      - cbn in I. destruct I as [<-|[]]. cbn. rewrite occ_snoc, String.eqb_refl. rewrite occ_none by (intros X; apply Q in X; contradiction). split; [reflexivity|].
        exists (t, i). split; [apply in_or_app; right; left; reflexivity|auto].
      - cbn [map_add] in I. destruct (String.eqb_spec (e_label e0) (t_label t)) as [X|X].
        + destruct I as [<-|I].
          * cbn. destruct (E0 e0 (or_introl eq_refl)) as (C & p & Ip & Hp). rewrite occ_snoc, <- X, String.eqb_refl, C. split; [reflexivity|]. exists p. split; [apply in_or_app; auto|exact Hp].
          * destruct (E0 e (or_intror I)) as (C & p & Ip & Hp). rewrite occ_snoc. destruct (String.eqb_spec (t_label t) (e_label e)) as [Y|Y].
            -- exfalso. cbn in N0. inversion N0; subst. apply H1. rewrite X, Y. apply in_map. exact I.
            -- rewrite app_nil_r. split; [exact C|]. exists p. split; [apply in_or_app; auto|exact Hp].
        + destruct I as [<-|I].
          * destruct (E0 e0 (or_introl eq_refl)) as (C & p & Ip & Hp). rewrite occ_snoc. destruct (String.eqb_spec (t_label t) (e_label e0)); [congruence|]. rewrite app_nil_r.
            split; [exact C|]. exists p. split; [apply in_or_app; auto|exact Hp].
          * apply IH; [intros; apply E0; right; auto|cbn in N0; inversion N0; auto| |exact I]. intros J. apply Q in J as [J|J]; [congruence|exact J]. }
    apply G; auto. intros J. apply in_map_iff in J as (p & Ep & Ip). rewrite <- Ep. apply P. exact Ip.
  - intros p I. rewrite map_add_labels. apply in_or_app. apply in_app_or in I as [I|[<-|[]]]; [left; auto|]. cbn [fst].
    destruct (existsb _ _) eqn:B; [left; apply Emem; auto|right; left; reflexivity].
Qed.
Lemma good_terms ts i : forall l mp, good l mp -> good (l ++ map (fun t => (t, i)) ts) (fold_left (fun mp t => map_add mp t i) ts mp).
Proof.
  induction ts as [|t ts IH]; intros l mp H; [cbn; rewrite app_nil_r; exact H|]. cbn [map fold_left].
  replace (l ++ (t, i) :: map (fun t0 => (t0, i)) ts)%list with ((l ++ [(t, i)]) ++ map (fun t0 => (t0, i)) ts)%list by (rewrite <- app_assoc; reflexivity).
  apply IH. apply good_add. exact H.
Qed.
Lemma good_all exprs : forall i l mp, good l mp -> good (l ++ numbered exprs i) (map_all exprs i mp).
Proof.
  induction exprs as [|[ts d] exprs IH]; intros i l mp H; [cbn; rewrite app_nil_r; exact H|]. cbn [numbered map_all]. rewrite app_assoc. apply IH. apply good_terms. exact H.
Qed.

(** There is one unknown per label, with all its coefficients in order. *)
Theorem C112_one_unknown_per_label :
  forall (exprs : list (list term * R)),
    let mp := map_all exprs 0 [] in let all := numbered exprs 0 in
    NoDup (map e_label mp) /\
    (forall p, In p all -> In (t_label (fst p)) (map e_label mp)) /\
    (forall e, In e mp -> e_coefs e = occurrences (e_label e) all /\
       exists p, In p all /\ t_label (fst p) = e_label e /\ e_i e = t_i (fst p) /\ e_j e = t_j (fst p) /\ e_kind e = t_kind (fst p)).
Proof.
  intros exprs. cbv zeta. assert (G0 : good [] []) by (split; [constructor|split; intros ? []]).
  destruct (good_all exprs 0 [] [] G0) as (N & E & P). cbn [app] in *. auto.
Qed.
Print Assumptions C112_one_unknown_per_label.

(** With one spelling per cell this is the mapping of C66. *)
Lemma elem_eqb_eq a b : elem_eqb a b = true <-> a = b.
Proof.
  destruct a as [[ka ia] ja], b as [[kb ib] jb]. cbn. rewrite !andb_true_iff, Bool.eqb_true_iff, !Nat.eqb_eq. split; [intros [[-> ->] ->]; reflexivity|intros E; injection E; auto].
Qed.
Theorem C112_same_system :
  forall (exprs : list (list term * R)),
    (forall p q, In p (numbered exprs 0) -> In q (numbered exprs 0) -> (cell (fst p) = cell (fst q) <-> t_label (fst p) = t_label (fst q))) ->
    map (fun e => (entry_cell e, e_coefs e)) (map_all exprs 0 []) = map_expressions (map (fun x => (tokens (fst x), snd x)) exprs) 0 [].
Proof.
  intros exprs H. set (S := fun t => exists i, In (t, i) (numbered exprs 0)).
  assert (HS : forall t u, S t -> S u -> (cell t = cell u <-> t_label t = t_label u)) by (intros t u [i I] [j J]; apply (H (t, i) (u, j) I J)).
  assert (A : forall t i mp, S t -> (forall e, In e mp -> exists u, S u /\ entry_cell e = cell u /\ e_label e = t_label u) ->
     map (fun e => (entry_cell e, e_coefs e)) (Expr_Model.map_add mp t i) = Constr_Model.map_add (map (fun e => (entry_cell e, e_coefs e)) mp) (cell t) (t_coef t) i /\
     (forall e, In e (Expr_Model.map_add mp t i) -> exists u, S u /\ entry_cell e = cell u /\ e_label e = t_label u)).
  { intros t i mp St. induction mp as [|e mp IH]; intros Q.
    - split; [reflexivity|]. intros e [<-|[]]. exists t. auto.
    - destruct (Q e (or_introl eq_refl)) as (u & Su & Cu & Lu). destruct IH as [IH1 IH2]; [intros; apply Q; right; auto|].
      cbn [Expr_Model.map_add map Constr_Model.map_add]. destruct (String.eqb_spec (e_label e) (t_label t)) as [X|X].
      + assert (Y : elem_eqb (entry_cell e) (cell t) = true) by (apply elem_eqb_eq; rewrite Cu; apply HS; [auto|auto|congruence]). rewrite Y.
        split; [reflexivity|]. intros e' [<-|I]; [exists u; auto|apply Q; right; auto].
      + assert (Y : elem_eqb (entry_cell e) (cell t) = false).
        { destruct (elem_eqb _ _) eqn:Z; [|reflexivity]. apply elem_eqb_eq in Z. exfalso. apply X. rewrite Lu. apply HS; congruence. }
        rewrite Y. cbn [map]. rewrite IH1. split; [reflexivity|]. intros e' [<-|I]; [exists u; auto|auto]. }
  assert (G : forall ex i mp mp', (forall t j, In (t, j) (numbered ex i) -> S t) -> (forall e, In e mp -> exists u, S u /\ entry_cell e = cell u /\ e_label e = t_label u) ->
     map (fun e => (entry_cell e, e_coefs e)) mp = mp' ->
     map (fun e => (entry_cell e, e_coefs e)) (map_all ex i mp) = map_expressions (map (fun x => (tokens (fst x), snd x)) ex) i mp').
  { induction ex as [|[ts d] ex IH]; intros i mp mp' Hs Q E; [exact E|]. cbn [map_all map map_expressions fst snd].
    assert (T : forall ts mp mp', (forall t, In t ts -> S t) -> (forall e, In e mp -> exists u, S u /\ entry_cell e = cell u /\ e_label e = t_label u) -> map (fun e => (entry_cell e, e_coefs e)) mp = mp' ->
       map (fun e => (entry_cell e, e_coefs e)) (fold_left (fun mp t => Expr_Model.map_add mp t i) ts mp) =
       fold_left (fun mp ec => Constr_Model.map_add mp (fst ec) (snd ec) i) (signed_terms false (tokens ts)) mp' /\
       (forall e, In e (fold_left (fun mp t => Expr_Model.map_add mp t i) ts mp) -> exists u, S u /\ entry_cell e = cell u /\ e_label e = t_label u)).
    { clear - A i. induction ts as [|t ts IH]; intros mp mp' Hs Q E; [cbn; auto|]. cbn [fold_left tokens map signed_terms fst snd]. fold (tokens ts).
      replace (t_coef t * 1)%R with (t_coef t) by lra. subst mp'. destruct (A t i mp (Hs t (or_introl eq_refl)) Q) as [A1 A2].
      apply IH; [intros; apply Hs; right; auto|exact A2|exact A1]. }
    destruct (T ts mp mp') as [T1 T2]; [|exact Q|exact E|].
    - intros t I. apply (Hs t i). cbn. apply in_or_app. left. apply (in_map (fun t0 => (t0, i))). exact I.
    - apply IH; [|exact T2|exact T1]. intros t j I. apply (Hs t j). cbn. apply in_or_app. right. exact I. }
  apply G; [|intros e []|reflexivity]. intros t j I. exists j. exact I.
Qed.
Print Assumptions C112_same_system.
Example C112_same_system_instance :
  let a := mkTerm "factor:1|feature:2" 1 2 "feature" 3 in let b := mkTerm "factor:2|feature:4" 2 4 "feature" (-1) in
  map_expressions (map (fun x => (tokens (fst x), snd x)) [([a; b], 250%R); ([b], 10%R)]) 0 [] =
    [((true, 1%nat, 2%nat), [(3%R, 0%nat)]); ((true, 2%nat, 4%nat), [((-1)%R, 0%nat); ((-1)%R, 1%nat)])].
Proof.
  intros a b. rewrite <- C112_same_system; [reflexivity|].
  intros p q [<-|[<-|[<-|[]]]] [<-|[<-|[<-|[]]]]; cbn; (split; intros E; [try reflexivity; discriminate E|try reflexivity; discriminate E]).
Qed.

(** Two spellings of one cell are two unknowns. *)
Theorem C112_one_unknown_per_cell_refuted :
  exists (to_float : string -> option R) (a b : string) (ta tb : term) (da db : R),
    read to_float a = inr ([ta], da) /\ read to_float b = inr ([tb], db) /\ cell ta = cell tb /\
    map entry_cell (map_all [([ta], da); ([tb], db)] 0 []) = [cell ta; cell tb].
Proof.
  exists some_float, "(0.66*[factor:1|feature:2])=0,250", "(0.66*[factor:1|feature:02])=0,250",
    (mkTerm "factor:1|feature:2" 1 2 "feature" (66 / 100 * 1)), (mkTerm "factor:1|feature:02" 1 2 "feature" (66 / 100 * 1)), 250%R, 250%R.
  repeat split; reflexivity.
Qed.
Print Assumptions C112_one_unknown_per_cell_refuted.
From Coq Require Import DecimalString DecimalNat.
Lemma digits_text d v ok : (ok = true \/ d <> Decimal.Nil) ->
  digits (NilEmpty.string_of_uint d) (Z.of_nat v) ok = Some (Z.of_nat (Nat.of_uint_acc d v)).
Proof.
  revert v ok. induction d; intros v ok H; cbn [NilEmpty.string_of_uint digits Nat.of_uint_acc];
    [destruct ok; [reflexivity|destruct H as [H|H]; [discriminate|contradiction]]|..];
    (change (digit _) with (@None Z) || idtac);
    (match goal with |- match ?x with Some _ => _ | None => _ end = _ => let y := eval cbv in x in change x with y end);
    cbv iota beta; rewrite <- IHd with (ok := true) by auto; f_equal; rewrite Nat.tail_mul_spec; lia.
Qed.
(** C112: the numbers of a term are read as written in decimal, with a sign. *)
Theorem C112_numbers_read : forall n : nat,
  py_int (NilEmpty.string_of_uint (Nat.to_uint n)) = Some (Z.of_nat n) /\
  py_int ("+" ++ NilEmpty.string_of_uint (Nat.to_uint n)) = Some (Z.of_nat n) /\
  py_int ("-" ++ NilEmpty.string_of_uint (Nat.to_uint n)) = Some (- Z.of_nat n)%Z.
Proof.
  intros n. assert (N : Nat.to_uint n <> Decimal.Nil) by (intros E; pose proof (Unsigned.of_to n) as O; rewrite E in O; cbn in O; subst n; discriminate E).
  assert (D : digits (NilEmpty.string_of_uint (Nat.to_uint n)) 0 false = Some (Z.of_nat n)).
  { change 0%Z with (Z.of_nat 0). rewrite digits_text by auto. change (Nat.of_uint_acc (Nat.to_uint n) 0) with (Nat.of_uint (Nat.to_uint n)). now rewrite Unsigned.of_to. }
  split; [|split].
  - rewrite <- D at 1. destruct (Nat.to_uint n); [contradiction|..]; reflexivity.
  - cbn [append]. rewrite <- D. reflexivity.
  - cbn [append]. transitivity (match digits (NilEmpty.string_of_uint (Nat.to_uint n)) 0 false with Some v => Some (- v)%Z | None => None end); [reflexivity|now rewrite D].
Qed.
Print Assumptions C112_numbers_read.
Example C112_numbers_read_example := C112_numbers_read 1204.
Example C112_numbers_instance : NilEmpty.string_of_uint (Nat.to_uint 120) = "120" /\ py_int " -0_7 " = Some (-7)%Z.
Proof. split; reflexivity. Qed.

(** C112: which texts are read as whole numbers, by a grammar of their own: blanks, a
    sign or none, decimal digits with single underscores between them, blanks. *)
Definition blanks : list ascii :=
  ["009"; "010"; "011"; "012"; "013"; "028"; "029"; "030"; "031"; "032"]%char.
Definition numerals : list ascii := ["0"; "1"; "2"; "3"; "4"; "5"; "6"; "7"; "8"; "9"]%char.
Inductive blank : string -> Prop :=
| blank_nil : blank ""
| blank_cons c s : In c blanks -> blank s -> blank (String c s).
(** Digits after a value [v] read so far, up to the final value. *)
Inductive tail_of : Z -> string -> Z -> Prop :=
| tail_nil v : tail_of v "" v
| tail_digit v d c s z : nth_error numerals d = Some c -> tail_of (10 * v + Z.of_nat d) s z -> tail_of v (String c s) z
| tail_under v d c s z : nth_error numerals d = Some c -> tail_of (10 * v + Z.of_nat d) s z -> tail_of v (String "_" (String c s)) z.
Definition numeral (s : string) (z : Z) : Prop :=
  exists d c t, nth_error numerals d = Some c /\ s = String c t /\ tail_of (Z.of_nat d) t z.

Lemma is_space_iff c : is_space c = true <-> In c blanks.
Proof. destruct c as [[] [] [] [] [] [] [] []]; cbv; split; intros H; try discriminate; try tauto; try reflexivity; repeat (destruct H as [H|H]; [discriminate|]); destruct H. Qed.
Lemma digit_iff c d : digit c = Some (Z.of_nat d) <-> nth_error numerals d = Some c.
Proof.
  split.
  - unfold digit. destruct ((48 <=? nat_of_ascii c) && (nat_of_ascii c <=? 57))%nat eqn:E; [|discriminate]. intros [= H]. apply Nat2Z.inj in H.
    apply andb_true_iff in E as [E1 E2]. apply Nat.leb_le in E1, E2. subst d.
    assert (C : c = ascii_of_nat (nat_of_ascii c)) by (symmetry; apply ascii_nat_embedding).
    remember (nat_of_ascii c) as x eqn:Ex. clear Ex. subst c.
    do 48 (destruct x as [|x]; [lia|]). do 10 (destruct x as [|x]; [reflexivity|]). lia.
  - intros H. do 10 (destruct d as [|d]; [injection H as <-; reflexivity|]). destruct d; discriminate.
Qed.
Lemma digit_nat c z : digit c = Some z -> exists d, z = Z.of_nat d.
Proof. unfold digit. destruct (_ && _); [|discriminate]. intros [= <-]. eauto. Qed.
Lemma only_space_iff s : only_space s = true <-> blank s.
Proof.
  induction s as [|c s IH]; cbn [only_space]; [split; [constructor|reflexivity]|]. rewrite andb_true_iff, is_space_iff, IH. split.
  - intros [A B]. now constructor.
  - intros H. inversion H; auto.
Qed.
Lemma not_digit_blank c d : In c blanks -> digit c = Some d -> False.
Proof. intros H. cbn in H. repeat (destruct H as [<-|H]; [discriminate|]). destruct H. Qed.

Lemma append_nil_r s : (s ++ "" = s)%string.
Proof. induction s as [|c s IH]; [reflexivity|]. cbn. now rewrite IH. Qed.

Lemma digits_sound : forall s v ok z, digits s v ok = Some z ->
  if ok then exists a b, s = (a ++ b)%string /\ tail_of v a z /\ blank b
  else exists d c a b, nth_error numerals d = Some c /\ s = (String c a ++ b)%string /\ tail_of (10 * v + Z.of_nat d) a z /\ blank b.
Proof.
  induction s as [|c s IH]; intros v ok z H; cbn [digits] in H.
  - destruct ok; [|discriminate]. injection H as <-. exists "", "". repeat split; constructor.
  - destruct (digit c) as [x|] eqn:D.
    + destruct (digit_nat c x D) as [d ->]. apply digit_iff in D. specialize (IH _ true z H). cbn in IH. destruct IH as (a & b & -> & T & B).
      destruct ok.
      * exists (String c a), b. split; [reflexivity|]. split; [eapply tail_digit; eauto|exact B].
      * exists d, c, a, b. auto.
    + destruct ok; [|discriminate]. cbn [andb] in H. destruct (Ascii.eqb_spec c "_") as [->|N].
      * specialize (IH v false z H). cbn in IH. destruct IH as (d & c & a & b & E & -> & T & B).
        exists (String "_" (String c a)), b. split; [reflexivity|]. split; [eapply tail_under; eauto|exact B].
      * destruct (only_space (String c s)) eqn:O; [|discriminate]. injection H as <-. apply only_space_iff in O.
        exists "", (String c s). split; [reflexivity|]. split; [constructor|exact O].
Qed.
Lemma digits_complete v a z b : tail_of v a z -> blank b -> digits (a ++ b) v true = Some z.
Proof.
  intros T B. induction T as [v|v d c s z E T IH|v d c s z E T IH]; cbn [append digits].
  - destruct b as [|c b]; [reflexivity|]. inversion B as [|? ? Hc Hb]; subst. cbn [digits append].
    destruct (digit c) eqn:D; [destruct (not_digit_blank c z Hc D)|]. cbn [andb].
    destruct (Ascii.eqb_spec c "_") as [->|_]; [cbn in Hc; repeat (destruct Hc as [Hc|Hc]; [discriminate|]); destruct Hc|].
    apply only_space_iff in B. rewrite B. reflexivity.
  - apply digit_iff in E. rewrite E. exact IH.
  - change (digit "_") with (@None Z). cbn [andb Ascii.eqb]. change (Ascii.eqb "_" "_") with true. cbv iota. cbn [digits].
    apply digit_iff in E. rewrite E. exact IH.
Qed.
Lemma digits_numeral s z : digits s 0 false = Some z <-> exists a b, s = (a ++ b)%string /\ numeral a z /\ blank b.
Proof.
  split.
  - intros H. apply digits_sound in H. cbn iota in H. destruct H as (d & c & a & b & E & -> & T & B).
    exists (String c a), b. split; [reflexivity|]. split; [|exact B]. exists d, c, a. rewrite Z.mul_0_r, Z.add_0_l in T. auto.
  - intros (a & b & -> & (d & c & t & E & -> & T) & B). cbn [append digits]. apply digit_iff in E. rewrite E.
    rewrite Z.mul_0_r, Z.add_0_l. apply digits_complete; assumption.
Qed.

Theorem C112_whole_numbers : forall s z,
  py_int s = Some z <->
  exists pre sign body post v, s = (pre ++ sign ++ body ++ post)%string /\ blank pre /\ blank post /\ numeral body v /\
    ((sign = "" \/ sign = "+") /\ z = v \/ sign = "-" /\ z = (- v)%Z).
Proof.
  intros s z. split.
  - induction s as [|c s IH]; cbn [py_int]; [discriminate|]. destruct (is_space c) eqn:S.
    + intros H. destruct (IH H) as (pre & sg & body & post & v & -> & B1 & Q). apply is_space_iff in S.
      exists (String c pre), sg, body, post, v. split; [reflexivity|]. split; [now constructor|exact Q].
    + destruct (Ascii.eqb_spec c "-") as [->|N1]; [|destruct (Ascii.eqb_spec c "+") as [->|N2]].
      * destruct (digits s 0 false) as [v|] eqn:D; [|discriminate]. intros [= <-]. apply digits_numeral in D as (a & b & -> & A & B).
        exists "", "-", a, b, v. split; [reflexivity|]. split; [constructor|]. split; [exact B|]. split; [exact A|]. right. auto.
      * intros D. apply digits_numeral in D as (a & b & -> & A & B).
        exists "", "+", a, b, z. split; [reflexivity|]. split; [constructor|]. split; [exact B|]. split; [exact A|]. left. auto.
      * intros D. apply digits_numeral in D as (a & b & -> & A & B).
        exists "", "", a, b, z. split; [reflexivity|]. split; [constructor|]. split; [exact B|]. split; [exact A|]. left. auto.
  - intros (pre & sg & body & post & v & -> & B1 & B2 & Nv & Q). induction B1 as [|c pre Hc B1 IH].
    + cbn [append]. assert (D : digits (body ++ post) 0 false = Some v) by (apply digits_numeral; eauto).
      destruct Q as [[[-> | ->] ->]|[-> ->]]; cbn [append].
      * destruct Nv as (d & c & t & E & -> & T). cbn [append] in *. cbn [py_int].
        assert (Nc : In c numerals) by (eapply nth_error_In; eauto).
        replace (is_space c) with false by (cbn in Nc; repeat (destruct Nc as [<-|Nc]; [reflexivity|]); destruct Nc).
        replace (Ascii.eqb c "-") with false by (cbn in Nc; repeat (destruct Nc as [<-|Nc]; [reflexivity|]); destruct Nc).
        replace (Ascii.eqb c "+") with false by (cbn in Nc; repeat (destruct Nc as [<-|Nc]; [reflexivity|]); destruct Nc).
        exact D.
      * cbn [py_int]. exact D.
      * cbn [py_int]. change (is_space "-") with false. change (Ascii.eqb "-" "-") with true. cbv iota. rewrite D. reflexivity.
    + cbn [append py_int]. apply is_space_iff in Hc. rewrite Hc. exact IH.
Qed.
Print Assumptions C112_whole_numbers.
Example C112_whole_numbers_example := C112_whole_numbers " -1204 " (-1204).
Example C112_whole_numbers_instance : numeral "1_20" 120 /\ blank " " /\ py_int " +1_20" = Some 120%Z /\ py_int "1__2" = None /\ py_int "- 1" = None.
Proof.
  split; [exists 1%nat, "1"%char, "_20"; split; [reflexivity|]; split; [reflexivity|]; apply (tail_under _ 2 "2"); [reflexivity|]; apply (tail_digit _ 0 "0"); [reflexivity|]; apply tail_nil|].
  split; [constructor; [cbn; tauto|constructor]|]. repeat split.
Qed.

(** A label in two expressions is one unknown with both coefficients. *)
Example C112_one_unknown_per_label_example :
  let a := mkTerm "factor:1|feature:2" 1 2 "feature" 3 in let b := mkTerm "factor:2|feature:4" 2 4 "feature" (-1) in
  map e_label (map_all [([a; b], 250%R); ([b], 10%R)] 0 []) = ["factor:1|feature:2"; "factor:2|feature:4"]%string /\
  map e_coefs (map_all [([a; b], 250%R); ([b], 10%R)] 0 []) = [[(3%R, 0%nat)]; [((-1)%R, 0%nat); ((-1)%R, 1%nat)]].
Proof. split; reflexivity. Qed.
Example C112_terms_are_tokens_example :=
  C112_terms_are_tokens some_float (mkW "" "0.66" "1" "feature" "2") [mkW "-" "4.2" "2" "feature" "4"]
    (mkTerm "factor:1|feature:2" 1 2 "feature" (66 / 100)) [mkTerm "factor:2|feature:4" 2 4 "feature" (- (42 / 10))]
    ltac:(repeat split; exists (66 / 100)%R; split; reflexivity)
    ltac:(constructor; [|constructor]; repeat split; exists (42 / 10)%R; split; reflexivity).
