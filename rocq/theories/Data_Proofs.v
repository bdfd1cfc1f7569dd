(** Lemmas for C46-C48 and C72-C74. *)
From Coq Require Import List Bool ZArith String Reals Lra Lia FunctionalExtensionality Permutation.
From Flocq Require Import Core.
From Verif Require Import Base Fl Data_Model.
Import ListNotations.
Local Open Scope string_scope.
Local Open Scope R_scope.

Lemma mem_In c l : mem c l = true <-> In c l.
Proof.
  unfold mem. rewrite existsb_exists. split.
  - intros (x & Hx & E). apply String.eqb_eq in E. subst. exact Hx.
  - intros H. exists c. split; [exact H|apply String.eqb_refl].
Qed.
Lemma mem_false c l : mem c l = false <-> ~ In c l.
Proof. rewrite <- mem_In. symmetry. apply not_true_iff_false. Qed.

(** ** Single precision *)
Global Instance prec24 : Prec_gt_0 24. Proof. reflexivity. Qed.
Lemma r32_idem x : r32 (r32 x) = r32 x.
Proof. unfold r32. apply round_generic; [apply valid_rnd_N|]. apply generic_format_round; [apply FLT_exp_valid, prec24|apply valid_rnd_N]. Qed.
Lemma r32_sign x : (x <= 0 -> r32 x <= 0) /\ (0 <= x -> 0 <= r32 x).
Proof.
  unfold r32. split; intros H.
  - rewrite <- (round_0 radix2 (FLT_exp (-149) 24) ZnearestE). apply round_le; [apply FLT_exp_valid, prec24|apply valid_rnd_N|exact H].
  - rewrite <- (round_0 radix2 (FLT_exp (-149) 24) ZnearestE). apply round_le; [apply FLT_exp_valid, prec24|apply valid_rnd_N|exact H].
Qed.
Lemma cast32_idem x : cast32 (cast32 x) = cast32 x.
Proof.
  destruct x as [a| | |]; try reflexivity. cbn [cast32].
  destruct (Rle_dec (bpow radix2 128) (Rabs (r32 a))) as [H|H]; [destruct (Rlt_dec a 0); reflexivity|].
  cbn [cast32]. rewrite r32_idem. destruct (Rle_dec _ _); [contradiction|reflexivity].
Qed.
Lemma cast32_nan x : is_nan (cast32 x) = is_nan x.
Proof. destruct x as [a| | |]; try reflexivity. cbn. destruct (Rle_dec _ _); [destruct (Rlt_dec a 0)|]; reflexivity. Qed.
(** The smallest positive double is below half the smallest positive single. *)
Lemma eps32_zero : eps32 = Fin 0.
Proof.
  unfold eps32, EPSILON. cbn [cast32].
  assert (H0 : r32 (bpow radix2 (-1022)) = 0).
  { unfold r32. apply (round_N_small_pos radix2 (FLT_exp (-149) 24) (fun x => negb (Z.even x)) _ (-1021)).
    - replace (-1021 - 1)%Z with (-1022)%Z by reflexivity. split; [apply Rle_refl|apply bpow_lt; reflexivity].
    - unfold FLT_exp. reflexivity. }
  rewrite H0, Rabs_R0. destruct (Rle_dec _ _) as [H|]; [|reflexivity]. pose proof (bpow_gt_0 radix2 128). lra.
Qed.
Lemma fix_zero_id x : fix_zero x = x.
Proof. destruct x as [a| | |]; try reflexivity. cbn. destruct (Req_EM_T a 0); [subst; apply eps32_zero|reflexivity]. Qed.

(** ** Dropping *)
Lemma filter_filter {A} (p q : A -> bool) l : filter p (filter q l) = filter (fun x => q x && p x) l.
Proof. induction l as [|a l IH]; cbn; [reflexivity|]. destruct (q a); cbn; [destruct (p a)|]; rewrite IH; reflexivity. Qed.
Lemma filter_true {A} (l : list A) : filter (fun _ => true) l = l.
Proof. induction l as [|a l IH]; cbn; [reflexivity|rewrite IH; reflexivity]. Qed.
Lemma filter_ext_in' {A} (p q : A -> bool) l : (forall x, In x l -> p x = q x) -> filter p l = filter q l.
Proof. induction l as [|a l IH]; cbn; intros H; [reflexivity|]. rewrite (H a) by auto. rewrite IH by auto. reflexivity. Qed.

Definition hides (o : option (list string)) (c : string) : bool := match o with None => false | Some l => mem c l end.
Lemma drop_ok l f : (forall c, In c l -> In c (cols f)) ->
  drop l f = Ok (mkF (filter (fun c => negb (mem c l)) (cols f)) (rows f)).
Proof.
  intros H. unfold drop. destruct (forallb _ l) eqn:E; [reflexivity|]. exfalso.
  assert (forallb (fun c => mem c (cols f)) l = true); [|congruence].
  apply forallb_forall. intros c Hc. apply mem_In, H, Hc.
Qed.
Lemma drop_missing l f c : In c l -> ~ In c (cols f) -> drop l f = Raise KeyError.
Proof.
  intros H Hn. unfold drop. destruct (forallb _ l) eqn:E; [|reflexivity]. rewrite forallb_forall in E.
  specialize (E c H). apply mem_In in E. contradiction.
Qed.
Lemma drop_opt_ok o f : (forall c, hides o c = true -> In c (cols f)) ->
  drop_opt o f = Ok (mkF (filter (fun c => negb (hides o c)) (cols f)) (rows f)).
Proof.
  destruct o as [l|]; intros H; cbn.
  - apply drop_ok. intros c Hc. apply H. apply mem_In, Hc.
  - destruct f as [cs rs]. cbn. rewrite filter_true. reflexivity.
Qed.
Lemma drop_each_ok l : forall fi fu, NoDup l -> cols fi = cols fu -> (forall c, In c l -> In c (cols fi)) ->
  let cs := filter (fun c => negb (mem c l)) (cols fi) in
  drop_each l fi fu = Ok (mkF cs (rows fi), mkF cs (rows fu)).
Proof.
  induction l as [|b l IH]; intros fi fu Hnd Hc Hin cs; unfold cs; cbn [drop_each].
  - destruct fi as [c1 r1], fu as [c2 r2]. cbn in *. subst c2.
    cbn. rewrite filter_true. reflexivity.
  - inversion Hnd as [|? ? Hb Hnd']; subst.
    rewrite !drop_ok by (intros c [<-|[]]; rewrite <- ?Hc; apply Hin; left; reflexivity). cbn [bind].
    rewrite IH; cbn [cols rows]; [|exact Hnd'|rewrite Hc; reflexivity|].
    + rewrite filter_filter.
      rewrite (filter_ext_in' (fun x => negb (mem x [b]) && negb (mem x l)) (fun c => negb (mem c (b :: l)))); [reflexivity|].
      intros c _. cbn [mem existsb]. rewrite <- negb_orb, orb_false_r. reflexivity.
    + intros c Hcl. apply filter_In. split; [apply Hin; right; exact Hcl|]. apply negb_true_iff, mem_false. intros [->|[]]. contradiction.
Qed.
Lemma drop_each_missing l b : forall fi fu, NoDup l -> In b l -> ~ In b (cols fi) -> drop_each l fi fu = Raise KeyError.
Proof.
  induction l as [|a l IH]; intros fi fu Hnd Hb Hn; [destruct Hb|]. cbn [drop_each].
  inversion Hnd as [|? ? Ha Hnd']; subst.
  destruct Hb as [->|Hb]; [rewrite (drop_missing [b] fi b) by (auto; left; reflexivity); reflexivity|].
  assert (E : forall f, drop [a] f = Ok (mkF (filter (fun c => negb (mem c [a])) (cols f)) (rows f)) \/ drop [a] f = Raise KeyError).
  { intros f. unfold drop. destruct (forallb _ _); auto. }
  destruct (E fi) as [-> | ->]; [|reflexivity]. cbn [bind]. destruct (E fu) as [-> | ->]; [|reflexivity]. cbn [bind].
  apply IH; [exact Hnd'|exact Hb|]. cbn [cols]. intros H. apply filter_In in H. tauto.
Qed.

Definition tri (x : fl) : fl := cast32 (fmul x (Fin 3)).
Definition on_num (g : fl -> fl) (c : cell) : cell := match c with Num x => Num (g x) | t => t end.
Lemma triple_each_ok l : forall f, NoDup l -> (forall c, In c l -> In c (cols f)) ->
  triple_each l f = Ok (mkF (cols f) (map (fun (r : row) c => if mem c l then on_num tri (r c) else r c) (rows f))).
Proof.
  induction l as [|w l IH]; intros f Hnd Hin; cbn [triple_each].
  - destruct f as [cs rs]. cbn. do 2 f_equal. symmetry. etransitivity; [|apply map_id]. apply map_ext. intros r. reflexivity.
  - inversion Hnd as [|? ? Hw Hnd']; subst. unfold triple.
    rewrite (proj2 (mem_In w (cols f))) by (apply Hin; left; reflexivity). cbn [bind].
    rewrite IH; cbn [cols rows]; [|exact Hnd'|intros c Hc; apply Hin; right; exact Hc].
    do 2 f_equal. rewrite map_map. apply map_ext. intros r. apply functional_extensionality. intros c.
    cbn [mem existsb]. destruct (String.eqb_spec c w) as [->|Hne]; cbn [orb].
    + fold (mem w l). rewrite (proj2 (mem_false w l)) by exact Hw. destruct (r w); reflexivity.
    + fold (mem c l). reflexivity.
Qed.
Lemma triple_each_missing l w : forall f, In w l -> ~ In w (cols f) -> triple_each l f = Raise KeyError.
Proof.
  induction l as [|a l IH]; intros f Hw Hn; [destruct Hw|]. cbn [triple_each]. unfold triple.
  destruct (mem a (cols f)) eqn:E; [|reflexivity]. cbn [bind]. apply mem_In in E.
  destruct Hw as [->|Hw]; [contradiction|]. apply IH; [exact Hw|exact Hn].
Qed.

Definition numeric (f : frame) : Prop := forall r c, In r (rows f) -> In c (cols f) -> exists x, r c = Num x.
Lemma as_float32_ok parse f : numeric f ->
  exists rs, as_float32 parse f = Ok (mkF (cols f) rs) /\
    Forall2 (fun r r' : row => forall c, In c (cols f) -> r' c = on_num cast32 (r c)) (rows f) rs.
Proof.
  intros Hn. unfold as_float32. destruct (forallb _ (rows f)) eqn:E.
  - eexists. split; [reflexivity|]. clear E. destruct f as [cs rs]. cbn [cols rows] in *. unfold numeric in Hn. cbn in Hn.
    induction rs as [|r rs IH]; cbn [map]; constructor; [|apply IH; intros r' c Hr; apply Hn; right; exact Hr].
    intros c Hc. destruct (Hn r c (or_introl eq_refl) Hc) as (x & ->). reflexivity.
  - exfalso. assert (H : forallb (fun r : row => forallb (fun c => match to32 parse (r c) with Some _ => true | None => false end) (cols f)) (rows f) = true); [|congruence].
    apply forallb_forall. intros r Hr. apply forallb_forall. intros c Hc. destruct (Hn r c Hr Hc) as (x & ->). reflexivity.
Qed.
Lemma as_float32_text parse f r c s : In r (rows f) -> In c (cols f) -> r c = Txt s -> parse s = None ->
  as_float32 parse f = Raise ValueError.
Proof.
  intros Hr Hc E Hp. unfold as_float32. destruct (forallb _ (rows f)) eqn:Ef; [|reflexivity]. exfalso.
  rewrite forallb_forall in Ef. specialize (Ef r Hr). rewrite forallb_forall in Ef. specialize (Ef c Hc). rewrite E in Ef.
  cbn in Ef. rewrite Hp in Ef. discriminate.
Qed.

(** ** Category table *)
Lemma cat_set_fst d f c : map fst (cat_set d f c) = if mem f (map fst d) then map fst d else (map fst d ++ [f])%list.
Proof.
  induction d as [|[f' c'] d IH]; [reflexivity|]. cbn [cat_set map fst mem existsb].
  rewrite (String.eqb_sym f f'). destruct (String.eqb_spec f' f) as [->|Hne]; cbn [orb map fst]; [reflexivity|].
  rewrite IH. fold (mem f (map fst d)). destruct (mem f (map fst d)); reflexivity.
Qed.
Lemma cat_set_nodup d f c : NoDup (map fst d) -> NoDup (map fst (cat_set d f c)).
Proof.
  intros H. rewrite cat_set_fst. destruct (mem f (map fst d)) eqn:E; [exact H|]. apply mem_false in E.
  apply (Permutation_NoDup (l := f :: map fst d)); [|constructor; assumption].
  apply Permutation_cons_append.
Qed.
Lemma cat_set_In d f c g k : NoDup (map fst d) -> (In (g, k) (cat_set d f c) <-> (if String.eqb g f then k = c else In (g, k) d)).
Proof.
  induction d as [|[f' c'] d IH]; intros Hnd; cbn [cat_set].
  - cbn [In]. destruct (String.eqb_spec g f) as [->|Hne]; split; intros H.
    + destruct H as [[= ->]|[]]. reflexivity.
    + subst. auto.
    + destruct H as [[= -> ->]|[]]. congruence.
    + destruct H.
  - cbn [map fst] in Hnd. inversion Hnd as [|? ? Hn Hnd']; subst. destruct (String.eqb_spec f' f) as [->|Hne].
    + cbn [In]. destruct (String.eqb_spec g f) as [->|Hg]; split; intros H.
      * destruct H as [[= ->]|H]; [reflexivity|]. exfalso. apply Hn. apply (in_map fst) in H. exact H.
      * subst. auto.
      * destruct H as [[= -> ->]|H]; [congruence|auto].
      * destruct H as [[= -> ->]|H]; [congruence|auto].
    + cbn [In]. rewrite IH by exact Hnd'. destruct (String.eqb_spec g f) as [->|Hg]; split; intros H; try tauto.
      destruct H as [[= -> ->]|H]; [congruence|exact H].
Qed.

(** ** Splitting *)
Lemma dedup_spec l : forall seen, NoDup (dedup seen l) /\ (forall k, In k (dedup seen l) <-> In k l /\ ~ In k seen).
Proof.
  induction l as [|a l IH]; intros seen; cbn [dedup].
  - split; [constructor|]. intros k. cbn. tauto.
  - destruct (in_dec (list_eq_dec cell_eq_dec) a seen) as [Hs|Hs].
    + destruct (IH seen) as [H1 H2]. split; [exact H1|]. intros k. rewrite H2. cbn [In]. split; [tauto|].
      intros [[->|H] Hn]; [contradiction|tauto].
    + destruct (IH (a :: seen)) as [H1 H2]. split.
      * constructor; [|exact H1]. rewrite H2. cbn. tauto.
      * intros k. cbn [In]. rewrite H2. cbn [In]. destruct (list_eq_dec cell_eq_dec a k) as [->|Hne]; [tauto|].
        split; [intros [H|[H Hn]]; [congruence|split; [tauto|intros H'; apply Hn; tauto]]|].
        intros [[H|H] Hn]; [congruence|]. right. split; [exact H|]. intros [H'|H']; [congruence|contradiction].
Qed.

Lemma cell_eqb_iff a b : cell_eqb a b = true <-> a = b /\ cell_nan a = false.
Proof.
  destruct a as [x|s], b as [y|t]; cbn.
  - destruct (fl_eq_dec x y) as [->|Hne].
    + rewrite negb_true_iff. tauto.
    + split; [discriminate|intros [[= E] _]; contradiction].
  - split; [discriminate|intros [[=] _]].
  - split; [discriminate|intros [[=] _]].
  - rewrite String.eqb_eq. split; [intros ->; auto|intros [[= ->] _]; reflexivity].
Qed.
Lemma cells_eqb_iff a : forall b, cells_eqb a b = true <-> a = b /\ forall c, In c a -> cell_nan c = false.
Proof.
  induction a as [|x a IH]; intros [|y b]; cbn [cells_eqb].
  - split; [split; [reflexivity|intros c []]|reflexivity].
  - split; [discriminate|intros [[=] _]].
  - split; [discriminate|intros [[=] _]].
  - rewrite andb_true_iff, cell_eqb_iff, IH. split.
    + intros [[-> H1] [-> H2]]. split; [reflexivity|]. intros c [<-|Hc]; auto.
    + intros [[= -> ->] H]. repeat split; try (apply H; left; reflexivity). intros c Hc. apply H. right. exact Hc.
Qed.

Lemma partition_by {A K} (dec : forall a b : K, {a = b} + {a <> b}) (key : A -> K) ks l :
  NoDup ks -> (forall a, In a l -> In (key a) ks) ->
  Permutation (flat_map (fun k => filter (fun a => if dec (key a) k then true else false) l) ks) l.
Proof.
  intros Hnd. induction l as [|a l IH]; intros Hin.
  - clear. induction ks; cbn; auto.
  - assert (G : forall k0 ks, NoDup ks -> In k0 ks -> key a = k0 ->
       Permutation (flat_map (fun k => filter (fun x => if dec (key x) k then true else false) (a :: l)) ks)
                   (a :: flat_map (fun k => filter (fun x => if dec (key x) k then true else false) l) ks)).
    { clear. intros k0 ks Hnd Hk E. induction ks as [|k ks IH]; [destruct Hk|]. inversion Hnd as [|? ? Hn Hnd']; subst.
      cbn [flat_map filter]. destruct (dec (key a) k) as [Ek|Ek].
      - cbn [app]. constructor. apply Permutation_app_head.
        assert (Hno : forall ks, ~ In k ks -> flat_map (fun k => filter (fun x => if dec (key x) k then true else false) (a :: l)) ks =
                        flat_map (fun k => filter (fun x => if dec (key x) k then true else false) l) ks).
        { clear -Ek. induction ks as [|k' ks IH]; intros Hn; [reflexivity|]. cbn [flat_map filter].
          destruct (dec (key a) k') as [E|]; [exfalso; apply Hn; left; congruence|]. f_equal. apply IH. intros H. apply Hn. right. exact H. }
        rewrite Hno by exact Hn. reflexivity.
      - destruct Hk as [Hk|Hk]; [congruence|]. cbn [filter] in IH. rewrite (IH Hnd' Hk). symmetry. apply Permutation_middle. }
    etransitivity; [apply (G (key a) ks Hnd (Hin a (or_introl eq_refl)) eq_refl)|]. constructor. apply IH.
    intros x Hx. apply Hin. right. exact Hx.
Qed.
Lemma combine_split_map {A B} (l : list (A * B)) : combine (map fst l) (map snd l) = l.
Proof. induction l as [|[a b] l IH]; cbn; [reflexivity|]. rewrite IH. reflexivity. Qed.
Lemma mapM_ok {A B} (f : A -> dres B) (g : A -> B) l : (forall a, In a l -> f a = Ok (g a)) -> mapM f l = Ok (map g l).
Proof.
  induction l as [|a l IH]; intros H; cbn; [reflexivity|]. rewrite (H a) by (left; reflexivity). cbn [bind].
  rewrite IH by (intros; apply H; right; assumption). reflexivity.
Qed.
Lemma mapM_raise {A B} (f : A -> dres B) e l : (forall a, In a l -> (exists b, f a = Ok b) \/ f a = Raise e) ->
  (exists a, In a l /\ f a = Raise e) -> mapM f l = Raise e.
Proof.
  induction l as [|a l IH]; intros H (x & Hx & E); [destruct Hx|]. cbn.
  destruct (H a (or_introl eq_refl)) as [(b & Eb)|Eb]; rewrite Eb; [|reflexivity]. cbn [bind].
  destruct Hx as [->|Hx]; [congruence|]. rewrite IH; [reflexivity| |exists x; auto]. intros y Hy. apply H. right. exact Hy.
Qed.
