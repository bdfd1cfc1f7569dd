(** C55, C81: comparing a base solution with the models of a batch. *)
From Coq Require Import List Bool String Reals Arith Lra Lia.
From Verif Require Import Base Fl Metrics_Model Boot_Model Boot_Proofs Est_Model Compare_Model.
Import ListNotations.
Local Open Scope R_scope.

(** ** Arrangements *)
Lemma picks_in {A} (l : list A) x t : In (x, t) (picks l) -> In x l /\ incl t l /\ S (List.length t) = List.length l /\ (NoDup l -> NoDup t /\ ~ In x t) /\ incl l (x :: t).
Proof.
  revert x t. induction l as [|a l IH]; intros x t H; [destruct H|]. cbn in H. destruct H as [H|H].
  - injection H as <- <-. split; [left; reflexivity|]. split; [intros y Hy; right; exact Hy|]. split; [reflexivity|]. split; [|apply incl_refl]. intros ND. inversion ND; subst. split; assumption.
  - apply in_map_iff in H. destruct H as ([y u] & E & H). cbn in E. injection E as -> <-. destruct (IH _ _ H) as (H1 & H2 & H3 & H4 & H5).
    split; [right; exact H1|]. split; [intros z [<-|Hz]; [left; reflexivity|right; apply H2, Hz]|]. split; [cbn; lia|]. split.
    + intros ND. inversion ND as [|? ? Na Nl]; subst. destruct (H4 Nl) as [N1 N2]. split; [constructor; [intros Hin; apply Na, H2, Hin|exact N1]|]. intros [E|Hin]; [apply Na; rewrite E; exact H1|exact (N2 Hin)].
    + intros z [<-|Hz]; [right; left; reflexivity|]. destruct (H5 z Hz) as [<-|Hin]; [left; reflexivity|right; right; exact Hin].
Qed.
Lemma picks_ex {A} (l : list A) x : In x l -> exists t, In (x, t) (picks l).
Proof.
  induction l as [|a l IH]; intros H; [destruct H|]. destruct H as [<-|H]; [exists l; left; reflexivity|]. destruct (IH H) as [t Ht]. exists (a :: t). right. apply in_map_iff. exists (x, t). split; [reflexivity|exact Ht].
Qed.

(** An arrangement of [r] of the numbers below [k]. *)
Definition arrangement (r k : nat) (p : list nat) : Prop := List.length p = r /\ NoDup p /\ forall x, In x p -> (x < k)%nat.

Lemma perms_iff (r : nat) : forall (l : list nat), NoDup l -> forall p, In p (perms r l) <-> List.length p = r /\ NoDup p /\ incl p l.
Proof.
  induction r as [|r IH]; intros l ND p; cbn [perms].
  - split.
    + intros [<-|[]]. repeat split; [constructor|intros x []].
    + intros (H & _ & _). destruct p; [left; reflexivity|discriminate].
  - rewrite in_flat_map. split.
    + intros ([x t] & Hp & Hin). cbn [fst snd] in Hin. apply in_map_iff in Hin. destruct Hin as (q & <- & Hq). destruct (picks_in _ _ _ Hp) as (H1 & H2 & _ & H4 & _). destruct (H4 ND) as [N1 N2].
      apply (IH t N1) in Hq. destruct Hq as (Q1 & Q2 & Q3). split; [cbn; lia|]. split; [constructor; [intros Hx; apply N2, Q3, Hx|exact Q2]|]. intros z [<-|Hz]; [exact H1|apply H2, Q3, Hz].
    + intros (H1 & H2 & H3). destruct p as [|x q]; [discriminate|]. inversion H2 as [|? ? Nx Nq]; subst. destruct (picks_ex l x) as [t Ht]; [apply H3; left; reflexivity|].
      exists (x, t). split; [exact Ht|]. apply in_map_iff. exists q. split; [reflexivity|]. destruct (picks_in _ _ _ Ht) as (_ & _ & _ & H5 & H6). cbn [snd].
      apply (IH t (proj1 (H5 ND))). split; [cbn in H1; lia|]. split; [exact Nq|]. intros z Hz. assert (Hl : In z l) by (apply H3; right; exact Hz). destruct (H6 z Hl) as [<-|Hin]; [contradiction|exact Hin].
Qed.
(** All one-to-one arrangements are tried, and nothing else. *)
Theorem C55_arrangements : forall (r k : nat) (p : list nat), In p (perms r (seq 0 k)) <-> arrangement r k p.
Proof.
  intros r k p. rewrite perms_iff by apply seq_NoDup. unfold arrangement, incl. split; intros (H1 & H2 & H3); (split; [exact H1|split; [exact H2|]]); intros x Hx; apply H3 in Hx; [apply in_seq in Hx; lia|apply in_seq; lia].
Qed.
Print Assumptions C55_arrangements.
Example C55_arrangements_example : In [2; 0]%nat (perms 2 (seq 0 3)).
Proof. apply (proj2 (C55_arrangements 2 3 [2; 0]%nat)). split; [reflexivity |]. split; [repeat constructor; cbn; lia |]. intros x [<- | [<- | []]]; lia. Qed.

(** ** Specification of an arrangement's score: the average over the pairs it
    forms of the squared correlation of profiles, contributions and shares. *)
Definition pairs_of (base_k : bool) (p : list nat) : list (nat * nat) :=
  map (fun i => if base_k then (nth i p 0%nat, i) else (i, nth i p 0%nat)) (seq 0 (List.length p)).
Definition avg_over (l : list (nat * nat)) (f : nat -> nat -> fl) : fl := lmean (map (fun q => f (fst q) (snd q)) l).
Definition score (method : string) (m n : nat) (b o : solution) (l : list (nat * nat)) : fl :=
  let h := avg_over l (fun i j => r2 n (s_H o j) (s_H b i)) in
  let w := avg_over l (fun i j => r2 m (fun t => s_W o t j) (fun t => s_W b t i)) in
  let wh := avg_over l (fun i j => r2 (m * n) (fun t => s_W o (t / n)%nat j * s_H o j (t mod n)%nat) (fun t => s_W b (t / n)%nat i * s_H b i (t mod n)%nat)) in
  if string_dec method "H" then h else if string_dec method "W" then w else if string_dec method "WH" then wh else fdiv (fadd (fadd h w) wh) (Fin 3).

Lemma enumerate_seq p : enumerate p = map (fun i => (i, nth i p 0%nat)) (seq 0 (List.length p)).
Proof.
  unfold enumerate. assert (G : forall (p : list nat) s, combine (seq s (List.length p)) p = map (fun i => (i, nth (i - s) p 0%nat)) (seq s (List.length p))).
  { clear. induction p as [|x p IH]; intros s; [reflexivity|]. cbn [List.length seq combine map]. rewrite Nat.sub_diag. cbn [nth]. f_equal. rewrite IH. apply map_ext_in. intros i Hi. apply in_seq in Hi.
    replace (i - s)%nat with (S (i - S s)) by lia. reflexivity. }
  rewrite G. apply map_ext. intros i. rewrite Nat.sub_0_r. reflexivity.
Qed.
Lemma combine_vals base_k p f : map (fun q : nat * nat => let '(i, j) := pair_at base_k (fst q) (snd q) in f i j) (enumerate p) = map (fun q => f (fst q) (snd q)) (pairs_of base_k p) :> list fl.
Proof. rewrite enumerate_seq. unfold pairs_of. rewrite !map_map. apply map_ext. intros i. destruct base_k; reflexivity. Qed.
Lemma model_avg_score method m n b o base_k p : model_avg (method_of method) (combine_factors m n b o base_k p) = score method m n b o (pairs_of base_k p).
Proof.
  unfold model_avg, combine_factors, score, avg_over. cbn [co_H co_W co_WH]. rewrite !combine_vals. unfold method_of.
  destruct (string_dec method "H") as [->|N1]; [reflexivity|]. destruct (string_dec method "W") as [->|N2]; [reflexivity|]. destruct (string_dec method "WH") as [->|N3]; [reflexivity|].
  rewrite !(proj2 (String.eqb_neq _ _)) by assumption. reflexivity.
Qed.

(** ** The search *)
(** [c] is the first maximum of [f] over [l] among those above 0. *)
Definition first_best {A} (f : A -> fl) (l : list A) (k : nat) (c : A) : Prop :=
  nth_error l k = Some c /\ flt (Fin 0) (f c) = true /\ (forall x, In x l -> flt (f c) (f x) = false) /\ (forall k' x, (k' < k)%nat -> nth_error l k' = Some x -> flt (f x) (f c) = true \/ f x = NaN).

(** Plain search for a first maximum above a start value. *)
Fixpoint firstmax {A} (f : A -> fl) (l : list A) (st : option A * fl) : option A * fl :=
  match l with [] => st | x :: t => firstmax f t (if flt (snd st) (f x) then (Some x, f x) else st) end.
Lemma firstmax_app {A} (f : A -> fl) l1 l2 st : firstmax f (l1 ++ l2) st = firstmax f l2 (firstmax f l1 st).
Proof. revert st. induction l1 as [|x l1 IH]; intros st; [reflexivity|]. cbn. apply IH. Qed.
Lemma firstmax_spec {A} (f : A -> fl) l : 
  (fst (firstmax f l (None, Fin 0)) = None /\ snd (firstmax f l (None, Fin 0)) = Fin 0 /\ (forall x, In x l -> flt (Fin 0) (f x) = false)) \/
  (exists k c, first_best f l k c /\ firstmax f l (None, Fin 0) = (Some c, f c)).
Proof.
  induction l as [|x l IH] using rev_ind; [left; repeat split; intros x []|]. rewrite firstmax_app. destruct IH as [(H1 & H2 & H3)|(k & c & (B1 & B2 & B3 & B4) & E)].
  - destruct (firstmax f l (None, Fin 0)) as [o v]. cbn in H1, H2. subst. cbn [firstmax snd]. destruct (flt (Fin 0) (f x)) eqn:Ex.
    + right. exists (List.length l), x. split; [|reflexivity]. split; [rewrite nth_error_app2, Nat.sub_diag by lia; reflexivity|]. split; [exact Ex|]. split.
      * intros y Hy. apply in_app_or in Hy. destruct Hy as [Hy|[<-|[]]]; [|apply flt_irrefl]. destruct (flt (f x) (f y)) eqn:Ey; [|reflexivity]. exfalso. pose proof (flt_trans _ _ _ Ex Ey) as T. rewrite (H3 y Hy) in T. discriminate.
      * intros k' y Hk Hy. rewrite nth_error_app1 in Hy by exact Hk. apply nth_error_In in Hy. pose proof (H3 y Hy) as Hz. destruct (f y) as [v| | |] eqn:Ef; [left|left|left|right; reflexivity]; try (cbn in Hz; discriminate).
        -- destruct (f x) as [w| | |]; cbn in Ex, Hz |- *; try discriminate; try reflexivity. apply Rltb_iff in Ex. apply Rltb_false in Hz. apply Rltb_iff. lra.
        -- destruct (f x) as [w| | |]; cbn in Ex |- *; try discriminate; reflexivity.
    + left. cbn. split; [reflexivity|]. split; [reflexivity|]. intros y Hy. apply in_app_or in Hy. destruct Hy as [Hy|[<-|[]]]; [apply H3, Hy|exact Ex].
  - right. rewrite E. cbn [firstmax snd]. destruct (flt (f c) (f x)) eqn:Ex.
    + exists (List.length l), x. split; [|reflexivity]. split; [rewrite nth_error_app2, Nat.sub_diag by lia; reflexivity|]. split; [exact (flt_trans _ _ _ B2 Ex)|]. split.
      * intros y Hy. apply in_app_or in Hy. destruct Hy as [Hy|[<-|[]]]; [|apply flt_irrefl]. destruct (flt (f x) (f y)) eqn:Ey; [|reflexivity]. exfalso. pose proof (flt_trans _ _ _ Ex Ey) as T. rewrite (B3 y Hy) in T. discriminate.
      * intros k' y Hk Hy. rewrite nth_error_app1 in Hy by exact Hk. apply nth_error_In in Hy. pose proof (B3 y Hy) as Hz.
        destruct (f y) as [v| | |] eqn:Ef; [left|left|left|right; reflexivity]; destruct (f c) as [u| | |], (f x) as [w| | |]; cbn in *; try discriminate; try reflexivity.
        apply Rltb_iff in Ex. apply Rltb_false in Hz. apply Rltb_iff. lra.
    + exists k, c. split; [|reflexivity]. split; [rewrite nth_error_app1 by (apply nth_error_Some; congruence); exact B1|]. split; [exact B2|]. split.
      * intros y Hy. apply in_app_or in Hy. destruct Hy as [Hy|[<-|[]]]; [apply B3, Hy|exact Ex].
      * intros k' y Hk Hy. apply (B4 k' y Hk). rewrite nth_error_app1 in Hy; [exact Hy|]. assert (k < List.length l)%nat by (apply nth_error_Some; congruence). lia.
Qed.

Lemma scan_spec me m l best mine :
  fst (scan me m l best mine) = firstmax (fun q => model_avg me (snd q)) (map (fun c => (m, c)) l) best /\
  snd (scan me m l best mine) = firstmax (model_avg me) l mine.
Proof. revert best mine. induction l as [|c l IH]; intros best mine; [split; reflexivity|]. cbn [scan map firstmax snd]. apply IH. Qed.

(** All candidates in the order tried. *)
Fixpoint candidates (combos : list (list combo)) (m : nat) : list (nat * combo) :=
  match combos with [] => [] | l :: t => (map (fun c => (m, c)) l ++ candidates t (S m))%list end.
Lemma scan_models_spec me combos : forall m best,
  fst (scan_models me combos m best) = firstmax (fun q => model_avg me (snd q)) (candidates combos m) best /\
  snd (scan_models me combos m best) = map (fun l => fst (firstmax (model_avg me) l (None, Fin 0))) combos.
Proof.
  induction combos as [|l t IH]; intros m best; [split; reflexivity|]. cbn [scan_models candidates map]. destruct (scan_spec me m l best (None, Fin 0)) as [S1 S2].
  destruct (scan me m l best (None, Fin 0)) as [b' mine]. cbn [fst snd] in S1, S2. destruct (IH (S m) b') as [T1 T2]. destruct (scan_models me t (S m) b') as [b'' rest]. cbn [fst snd] in *.
  rewrite firstmax_app, <- S1. split; [exact T1|]. rewrite T2, S2. reflexivity.
Qed.
Lemma candidates_in combos : forall m i c, In (i, c) (candidates combos m) <-> exists l, (m <= i)%nat /\ nth_error combos (i - m) = Some l /\ In c l.
Proof.
  induction combos as [|l t IH]; intros m i c; cbn [candidates].
  - split; [intros []|]. intros (l & _ & H & _). destruct (i - m)%nat; discriminate.
  - rewrite in_app_iff, IH. split.
    + intros [H|(l' & H1 & H2 & H3)].
      * apply in_map_iff in H. destruct H as (c' & E & H). injection E as -> ->. exists l. rewrite Nat.sub_diag. repeat split; [lia|exact H].
      * exists l'. split; [lia|]. split; [|exact H3]. replace (i - m)%nat with (S (i - S m)) by lia. exact H2.
    + intros (l' & H1 & H2 & H3). destruct (Nat.eq_dec i m) as [->|Hne].
      * left. rewrite Nat.sub_diag in H2. injection H2 as <-. apply in_map_iff. exists c. auto.
      * right. exists l'. split; [lia|]. split; [|exact H3]. replace (i - m)%nat with (S (i - S m)) in H2 by lia. exact H2.
Qed.

(** ** Failed models *)
Lemma lookup_all_none results count : (count <= List.length results)%nat -> (lookup_all results count = None <-> exists i, (i < count)%nat /\ nth_error results i = Some None).
Proof.
  revert results. induction count as [|c IH]; intros results Hl; cbn [lookup_all].
  - split; [intros ?Hd; discriminate|intros (i & Hi & _); lia].
  - destruct results as [|[s|] t]; [cbn in Hl; lia| |].
    + cbn in Hl. specialize (IH t ltac:(lia)). destruct (lookup_all t c).
      * split; [intros ?Hd; discriminate|]. intros ([|i] & Hi & H); [discriminate|]. exfalso. assert (Some l = None) by (apply IH; exists i; split; [lia|exact H]). discriminate.
      * split; [|reflexivity]. intros _. destruct (proj1 IH eq_refl) as (i & Hi & H). exists (S i). split; [lia|exact H].
    + split; [|reflexivity]. intros _. exists 0%nat. split; [lia|reflexivity].
Qed.
Lemma filter_len_le {A} (f : A -> bool) l : (List.length (filter f l) <= List.length l)%nat.
Proof. induction l as [|x l IH]; [reflexivity|]. cbn. destruct (f x); cbn; lia. Qed.

(** With at least one base factor and more than one processor: KeyError exactly
    when a failed model comes before a successful one. *)
Theorem C55_failed_models : forall (cpus m n kb ks : nat) (me : cmethod) (b : solution) (results : list (option solution)),
  (0 < kb)%nat -> (1 < cpus)%nat ->
  (compare cpus m n kb ks me b results = KeyErr <-> exists i j s, (i < j)%nat /\ nth_error results i = Some None /\ nth_error results j = Some (Some s)).
Proof.
  intros cpus m n kb ks me b results Hk Hc. unfold compare. rewrite (proj2 (Nat.eqb_neq kb 0)) by lia. rewrite (proj2 (Nat.leb_gt cpus 1)) by lia.
  set (cnt := parsed_count results). assert (Hl : (cnt <= List.length results)%nat) by apply filter_len_le.
  assert (Key : (exists i, (i < cnt)%nat /\ nth_error results i = Some None) <-> exists i j s, (i < j)%nat /\ nth_error results i = Some None /\ nth_error results j = Some (Some s)).
  { subst cnt. clear. unfold parsed_count. induction results as [|[s|] t IH]; cbn [filter List.length].
    - split; [intros (i & Hi & _); cbn in Hi; lia|intros ([|i] & j & s & _ & H & _); discriminate].
    - cbn [List.length]. split.
      + intros ([|i] & Hi & H); [discriminate|]. destruct (proj1 IH) as (i' & j' & s' & H1 & H2 & H3); [exists i; split; [lia|exact H]|]. exists (S i'), (S j'), s'. split; [lia|]. split; assumption.
      + intros ([|i] & j & s' & Hij & Hi & Hj); [discriminate|]. destruct j as [|j]; [lia|]. destruct (proj2 IH) as (i' & H1 & H2); [exists i, j, s'; split; [lia|]; split; assumption|]. exists (S i'). split; [lia|exact H2].
    - split.
      + intros (i & Hi & _). assert (E : exists j s, nth_error t j = Some (Some s)).
        { destruct (filter (fun r => match r with Some _ => true | None => false end) t) as [|x l] eqn:Ef; [cbn in Hi; lia|]. assert (Hx : In x (filter (fun r => match r with Some _ => true | None => false end) t)) by (rewrite Ef; left; reflexivity).
          apply filter_In in Hx. destruct Hx as [Hx Hs]. destruct x as [s|]; [|discriminate]. apply In_nth_error in Hx. destruct Hx as [j Hj]. exists j, s. exact Hj. }
        destruct E as (j & s & Hj). exists 0%nat, (S j), s. split; [lia|]. split; [reflexivity|exact Hj].
      + intros (i & j & s & Hij & _ & Hj). destruct j as [|j]; [lia|]. exists 0%nat. split; [|reflexivity].
        assert (Hin : In (Some s) (filter (fun r => match r with Some _ => true | None => false end) t)) by (apply filter_In; split; [apply (nth_error_In t j); exact Hj|reflexivity]).
        destruct (filter _ t); [destruct Hin|cbn; lia]. }
  rewrite <- Key, <- (lookup_all_none results cnt Hl). destruct (lookup_all results cnt) as [sols|]; [|split; reflexivity].
  destruct (scan_models _ _ _ _) as [[[[i c]|] a] models]; split; intros ?Hd; discriminate.
Qed.
Print Assumptions C55_failed_models.
Example C55_failed_instance : let s := mkSol (fun _ _ => 1) (fun _ _ => 1) in exists i j s', (i < j)%nat /\ nth_error [None; Some s] i = Some None /\ nth_error [None; Some s] j = Some (Some s').
Proof. intros s. exists 0%nat, 1%nat, s. repeat split. lia. Qed.

(** On a machine with a single processor the comparison cannot run. *)
Theorem C55_single_processor : forall (m n kb ks : nat) (me : cmethod) (b : solution) (results : list (option solution)) (c : comparison),
  compare 1 m n kb ks me b results <> Done c.
Proof. intros. unfold compare. destruct (lookup_all _ _); [cbn; discriminate|discriminate]. Qed.
Print Assumptions C55_single_processor.
Example C55_single_processor_example :=
  C55_single_processor 2 2 2 2 (method_of "all") (mkSol (fun t i => INR (t + i)) (fun i j => INR (i * j))) [Some (mkSol (fun _ _ => 1) (fun _ _ => 1))].

(** ** Outcome for models that all succeeded *)
Definition tried (kb ks : nat) (p : list nat) : Prop := if (ks <=? kb)%nat then arrangement ks kb p else arrangement kb ks p.
Definition score_of (method : string) (m n kb ks : nat) (b : solution) (sols : list solution) (i : nat) (p : list nat) : fl :=
  match nth_error sols i with Some o => score method m n b o (pairs_of (ks <=? kb)%nat p) | None => NaN end.

Lemma lookup_good (sols : list solution) : lookup_all (map Some sols) (parsed_count (map Some sols)) = Some sols.
Proof. unfold parsed_count. induction sols as [|s l IH]; [reflexivity|]. cbn. rewrite IH. reflexivity. Qed.

Lemma tried_arr kb ks p : tried kb ks p <-> In p (if (ks <=? kb)%nat then perms ks (seq 0 kb) else perms kb (seq 0 ks)).
Proof. unfold tried. destruct (ks <=? kb)%nat; rewrite C55_arrangements; reflexivity. Qed.

(** The reported model and arrangement have the largest score of all models and
    arrangements, and it is positive; for each model the best of its own
    arrangements is recorded.  Without any positive score the call raises. *)
Theorem C55_best : forall (cpus m n kb ks : nat) (method : string) (b : solution) (sols : list solution), (1 < cpus)%nat ->
  let sc := score_of method m n kb ks b sols in
  match compare cpus m n kb ks (method_of method) b (map Some sols) with
  | Done r =>
      (cmp_model r < List.length sols)%nat /\ tried kb ks (co_map (cmp_best r)) /\ cmp_avg r = sc (cmp_model r) (co_map (cmp_best r)) /\ flt (Fin 0) (cmp_avg r) = true /\
      (forall i p, (i < List.length sols)%nat -> tried kb ks p -> flt (cmp_avg r) (sc i p) = false) /\
      (forall i p, (i < cmp_model r)%nat -> tried kb ks p -> flt (sc i p) (cmp_avg r) = true \/ sc i p = NaN) /\
      List.length (cmp_models r) = List.length sols /\
      (forall i, (i < List.length sols)%nat -> match nth i (cmp_models r) None with
         | Some c => tried kb ks (co_map c) /\ flt (Fin 0) (sc i (co_map c)) = true /\ forall p, tried kb ks p -> flt (sc i (co_map c)) (sc i p) = false
         | None => forall p, tried kb ks p -> flt (Fin 0) (sc i p) = false end)
  | TypeErr => forall i p, (i < List.length sols)%nat -> tried kb ks p -> flt (Fin 0) (sc i p) = false
  | _ => False
  end.
Proof.
  intros cpus m n kb ks method b sols Hc sc. unfold compare. set (me := method_of method).
  assert (L0 : exists x, lookup_all (map Some sols) (if (kb =? 0)%nat then 0%nat else parsed_count (map Some sols)) = Some x).
  { destruct (kb =? 0)%nat; [exists []; reflexivity|exists sols; apply lookup_good]. }
  destruct L0 as [x0 ->]. rewrite (proj2 (Nat.leb_gt cpus 1)) by lia. rewrite lookup_good.
  set (arr := if (ks <=? kb)%nat then perms ks (seq 0 kb) else perms kb (seq 0 ks)).
  set (combos := map (fun o => map (combine_factors m n b o (ks <=? kb)%nat) arr) sols).
  assert (NC : forall i l, nth_error combos i = Some l -> exists o, nth_error sols i = Some o /\ l = map (combine_factors m n b o (ks <=? kb)%nat) arr).
  { intros i l H. unfold combos in H. rewrite nth_error_map in H. destruct (nth_error sols i) as [o|]; [|discriminate]. injection H as <-. exists o. split; reflexivity. }
  assert (ScA : forall i o p, nth_error sols i = Some o -> model_avg me (combine_factors m n b o (ks <=? kb)%nat p) = sc i p).
  { intros i o p H. unfold sc, score_of. rewrite H. apply model_avg_score. }
  assert (Cand : forall i p, (i < List.length sols)%nat -> tried kb ks p -> exists c, In (i, c) (candidates combos 0) /\ co_map c = p /\ model_avg me c = sc i p).
  { intros i p Hi Hp. destruct (nth_error sols i) as [o|] eqn:Eo; [|apply nth_error_None in Eo; lia]. exists (combine_factors m n b o (ks <=? kb)%nat p). split; [|split; [reflexivity|apply ScA, Eo]].
    apply candidates_in. rewrite Nat.sub_0_r. exists (map (combine_factors m n b o (ks <=? kb)%nat) arr). split; [lia|]. split; [unfold combos; rewrite nth_error_map, Eo; reflexivity|]. apply in_map. apply tried_arr, Hp. }
  assert (CandI : forall i c, In (i, c) (candidates combos 0) -> (i < List.length sols)%nat /\ tried kb ks (co_map c) /\ model_avg me c = sc i (co_map c)).
  { intros i c H. apply candidates_in in H. rewrite Nat.sub_0_r in H. destruct H as (l & _ & H1 & H2). destruct (NC _ _ H1) as (o & Eo & ->). apply in_map_iff in H2. destruct H2 as (p & <- & Hp).
    split; [apply nth_error_Some; congruence|]. split; [apply tried_arr; exact Hp|]. cbn [co_map combine_factors]. apply ScA, Eo. }
  destruct (scan_models_spec me combos 0 (None, Fin 0)) as [S1 S2]. destruct (scan_models me combos 0 (None, Fin 0)) as [best models]. cbn [fst snd] in S1, S2.
  destruct (firstmax_spec (fun q : nat * combo => model_avg me (snd q)) (candidates combos 0)) as [(F1 & F2 & F3)|(k & [i c] & (B1 & B2 & B3 & B4) & E)].
  - rewrite <- S1 in F1. destruct best as [[[i c]|] a]; [discriminate|]. intros i p Hi Hp. destruct (Cand i p Hi Hp) as (c & Hin & _ & Ec). rewrite <- Ec. apply (F3 _ Hin).
  - rewrite E in S1. subst best. cbn [cmp_model cmp_best cmp_avg cmp_models snd] in *. destruct (CandI i c (nth_error_In _ _ B1)) as (C1 & C2 & C3).
    split; [exact C1|]. split; [exact C2|]. split; [exact C3|]. split; [exact B2|]. split; [|split; [|split]].
    + intros i' p Hi Hp. destruct (Cand i' p Hi Hp) as (c' & Hin & _ & Ec). rewrite <- Ec. apply (B3 _ Hin).
    + intros i' p Hi Hp. destruct (Cand i' p ltac:(lia) Hp) as (c' & Hin & _ & Ec). rewrite <- Ec. apply In_nth_error in Hin. destruct Hin as [k' Hk'].
      apply (B4 k' (i', c')); [|exact Hk'].
      (* positions grow with the model *)
      assert (Mono : forall combos m k k' i i' (c c' : combo), nth_error (candidates combos m) k = Some (i, c) -> nth_error (candidates combos m) k' = Some (i', c') -> (i' < i)%nat -> (k' < k)%nat).
      { clear. induction combos as [|l t IH]; intros m k k' i i' c c' Hk Hk' Hlt; cbn [candidates] in *; [destruct k; discriminate|].
        destruct (Nat.lt_ge_cases k (List.length (map (fun c => (m, c)) l))) as [G|G].
        - exfalso. rewrite nth_error_app1 in Hk by exact G. apply nth_error_In, in_map_iff in Hk. destruct Hk as (? & E & _). injection E as <- _.
          assert (In (i', c') (map (fun c => (m, c)) l ++ candidates t (S m))%list) by (eapply nth_error_In; exact Hk'). apply in_app_or in H. destruct H as [H|H].
          + apply in_map_iff in H. destruct H as (? & E & _). injection E as <- _. lia.
          + apply candidates_in in H. destruct H as (_ & H & _). lia.
        - destruct (Nat.lt_ge_cases k' (List.length (map (fun c => (m, c)) l))) as [G'|G']; [lia|]. rewrite nth_error_app2 in Hk, Hk' by assumption. specialize (IH _ _ _ _ _ _ _ Hk Hk' Hlt). lia. }
      apply (Mono combos 0%nat k k' i i' c c'); assumption.
    + rewrite S2. unfold combos. rewrite !map_length. reflexivity.
    + intros i' Hi. rewrite S2. destruct (nth_error sols i') as [o|] eqn:Eo; [|apply nth_error_None in Eo; lia].
      assert (En : nth i' (map (fun l => fst (firstmax (model_avg me) l (None, Fin 0))) combos) None = fst (firstmax (model_avg me) (map (combine_factors m n b o (ks <=? kb)%nat) arr) (None, Fin 0))).
      { apply nth_error_nth. unfold combos. rewrite map_map, nth_error_map, Eo. reflexivity. }
      rewrite En. destruct (firstmax_spec (model_avg me) (map (combine_factors m n b o (ks <=? kb)%nat) arr)) as [(F1 & _ & F3)|(k' & c' & (G1 & G2 & G3 & _) & E')].
      * rewrite F1. intros p Hp. rewrite <- (ScA i' o p Eo). apply F3. apply in_map. apply tried_arr, Hp.
      * rewrite E'. cbn [fst]. apply nth_error_In in G1. pose proof G1 as G1'. apply in_map_iff in G1'. destruct G1' as (p' & <- & Hp'). cbn [co_map combine_factors]. split; [apply tried_arr; exact Hp'|]. rewrite <- (ScA i' o p' Eo). split; [exact G2|].
        intros p Hp. rewrite <- (ScA i' o p Eo). apply G3. apply in_map. apply tried_arr, Hp.
Qed.
Print Assumptions C55_best.
Example C55_best_example :=
  C55_best 2 2 2 2 2 "WH" (mkSol (fun t i => INR (t + i)) (fun i j => INR (i * j))) [mkSol (fun t i => INR (t * i)) (fun i j => INR (i + j)); mkSol (fun _ _ => 1) (fun _ _ => 1)] ltac:(lia).

(** ** A model that is the base solution in another order and scale *)
Lemma cov_zero n x : cov n x x = 0 -> forall i, (i < n)%nat -> x i = mean n x.
Proof.
  intros H i Hi. unfold cov in H. pose proof (rsum_nonneg_zero n (fun i => (x i - mean n x) * (x i - mean n x)) (fun j _ => Rle_0_sqr _) H i Hi) as E. cbv beta in E. apply Rsqr_0_uniq in E. lra.
Qed.
Lemma cov_const0 n x c : (0 < n)%nat -> (forall i, (i < n)%nat -> x i = c) -> cov n x x = 0.
Proof.
  intros Hn H. assert (Hm : mean n x = c). { unfold mean. rewrite (rsum_ext n x (fun _ => c)) by exact H. rewrite rsum_const. field. apply not_0_INR. lia. }
  unfold cov. rewrite <- (rsum_0 n). apply rsum_ext. intros i Hi. rewrite Hm, H by exact Hi. ring.
Qed.
Lemma share_varies m n s f : (0 < m)%nat -> (0 < n)%nat -> cov m (fun t => s_W s t f) (fun t => s_W s t f) <> 0 -> cov n (s_H s f) (s_H s f) <> 0 -> cov (m * n) (share n s f) (share n s f) <> 0.
Proof.
  intros Hm Hn HW HH E. pose proof (cov_zero _ _ E) as C. set (c := mean (m * n) (share n s f)) in C.
  assert (P : forall t j, (t < m)%nat -> (j < n)%nat -> s_W s t f * s_H s f j = c).
  { intros t j Ht Hj. assert (Hi : (t * n + j < m * n)%nat) by nia. rewrite <- (C _ Hi). unfold share.
    assert (E1 : ((t * n + j) / n = t)%nat) by (rewrite Nat.div_add_l, Nat.div_small by lia; lia). assert (E2 : ((t * n + j) mod n = j)%nat) by (rewrite Nat.add_comm, Nat.mod_add by lia; apply Nat.mod_small, Hj). rewrite E1, E2. reflexivity. }
  destruct (Req_dec c 0) as [Z0|Z0].
  - (* some contribution is not zero, so all profile entries are *)
    apply HH. apply (cov_const0 n _ 0 Hn). intros j Hj.
    destruct (Req_dec (s_H s f j) 0) as [G|G]; [exact G|]. exfalso. apply HW. apply (cov_const0 m _ 0 Hm). intros t Ht. pose proof (P t j Ht Hj) as Q. rewrite Z0 in Q. apply Rmult_integral in Q. destruct Q; [assumption|contradiction].
  - apply HW. assert (Hj0 : (0 < n)%nat) by exact Hn. assert (G : s_H s f 0%nat <> 0). { intros G. pose proof (P 0%nat 0%nat Hm Hn) as Q. rewrite G, Rmult_0_r in Q. congruence. }
    apply (cov_const0 m _ (c / s_H s f 0%nat) Hm). intros t Ht. rewrite <- (P t 0%nat Ht Hn). field. exact G.
Qed.

Definition unit_or_nan (x : fl) : Prop := x = NaN \/ exists v, x = Fin v /\ 0 <= v <= 1.
Lemma r2_unit n x y : unit_or_nan (r2 n x y).
Proof. destruct (r2 n x y) as [v| | |] eqn:E; [right; exists v; split; [reflexivity|exact (r2_range _ _ _ _ E)]| | |left; reflexivity]; exfalso; unfold r2 in E; destruct (Reqb (cov n x x) 0); try discriminate; destruct (Reqb (cov n y y) 0); discriminate. Qed.
Lemma lfsum_unit l : Forall unit_or_nan l -> forall a, (a = NaN \/ exists v, a = Fin v) -> fold_left fadd l a = NaN \/ exists v w, a = Fin v /\ fold_left fadd l a = Fin (v + w) /\ 0 <= w <= INR (List.length l).
Proof.
  induction 1 as [|x l Hx Hl IH]; intros a Ha; cbn [fold_left].
  - destruct Ha as [->|(v & ->)]; [left; reflexivity|]. right. exists v, 0. cbn. split; [reflexivity|]. split; [f_equal; ring|lra].
  - destruct Ha as [->|(v & ->)].
    + destruct (IH NaN (or_introl eq_refl)) as [E|(v & w & E & _)]; [left; cbn; exact E|discriminate].
    + destruct Hx as [->|(u & -> & Hu)]; [destruct (IH NaN (or_introl eq_refl)) as [E|(v' & w & E & _)]; [left; cbn; exact E|discriminate]|].
      destruct (IH (Fin (v + u)) (or_intror (ex_intro _ _ eq_refl))) as [E|(v' & w & E & E2 & Hw)]; [left; exact E|]. injection E as <-. right. exists v, (u + w). split; [reflexivity|]. split; [change (fadd (Fin v) (Fin u)) with (Fin (v + u)); rewrite E2; f_equal; ring|].
      cbn [List.length]. rewrite S_INR. lra.
Qed.
Lemma lmean_unit l : Forall unit_or_nan l -> unit_or_nan (lmean l).
Proof.
  intros H. unfold lmean, lfsum. destruct (lfsum_unit l H (Fin 0) (or_intror (ex_intro _ _ eq_refl))) as [->|(v & w & E & -> & Hw)]; [left; destruct l; reflexivity|]. injection E as <-.
  destruct (List.length l) as [|k] eqn:El.
  - left. destruct l; [|discriminate]. assert (w = 0) by (cbn in Hw; lra). subst. unfold fdiv. cbn [INR]. destruct (Req_EM_T 0 0); [|lra]. rewrite Rplus_0_l. cbn [fsign]. destruct (Rlt_dec 0 0); [lra|]. unfold inf_of_sign. destruct (Rlt_dec 0 0); [lra|reflexivity].
  - right. pose proof (pos_INR k) as Hk. rewrite S_INR in *. unfold fdiv. destruct (Req_EM_T (INR k + 1) 0); [lra|]. eexists. split; [reflexivity|]. rewrite Rplus_0_l.
    split; [apply Rmult_le_pos; [lra|left; apply Rinv_0_lt_compat; lra]|]. apply Rmult_le_reg_r with (INR k + 1); [lra|]. unfold Rdiv. rewrite Rmult_assoc, Rinv_l, Rmult_1_r, Rmult_1_l by lra. lra.
Qed.
Lemma lmean_ones l : l <> [] -> Forall (fun x => x = Fin 1) l -> lmean l = Fin 1.
Proof.
  intros Hl H. assert (S : forall l a, Forall (fun x => x = Fin 1) l -> fold_left fadd l (Fin a) = Fin (a + INR (List.length l))).
  { clear. induction l as [|x l IH]; intros a H; cbn [fold_left]; [f_equal; cbn; ring|]. inversion H; subst. change (fadd (Fin a) (Fin 1)) with (Fin (a + 1)). rewrite IH by assumption. f_equal. change (List.length (Fin 1 :: l)) with (S (List.length l)). rewrite S_INR. ring. }
  unfold lmean, lfsum. rewrite S by exact H. destruct l as [|x l]; [congruence|]. assert (INR (List.length (x :: l)) <> 0) by (apply not_0_INR; discriminate). unfold fdiv. destruct (Req_EM_T _ 0); [contradiction|]. f_equal. field. exact H0.
Qed.
Lemma third (a b c : fl) : unit_or_nan a -> unit_or_nan b -> unit_or_nan c -> unit_or_nan (fdiv (fadd (fadd a b) c) (Fin 3)).
Proof.
  intros [->|(u & -> & Hu)] [->|(v & -> & Hv)] [->|(w & -> & Hw)]; try (left; reflexivity). right. cbn [fadd]. unfold fdiv. destruct (Req_EM_T 3 0); [lra|]. eexists. split; [reflexivity|]. lra.
Qed.
Lemma avg_unit l f : (forall i j, unit_or_nan (f i j)) -> unit_or_nan (avg_over l f).
Proof. intros H. apply lmean_unit. apply Forall_forall. intros x Hx. apply in_map_iff in Hx. destruct Hx as ([i j] & <- & _). apply H. Qed.
Lemma score_unit method m n b o l : unit_or_nan (score method m n b o l).
Proof. unfold score. destruct (string_dec method "H"); [|destruct (string_dec method "W"); [|destruct (string_dec method "WH"); [|apply third]]]; apply avg_unit; intros; apply r2_unit. Qed.

(** Model factor [i] is base factor [s i] up to non-zero scales. *)
Definition same_up_to_scale (m n k : nat) (b o : solution) (s : nat -> nat) : Prop :=
  bij k s /\ exists c d : nat -> R, (forall i, (i < k)%nat -> c i <> 0 /\ d i <> 0) /\
    (forall t i, (t < m)%nat -> (i < k)%nat -> s_W o t i = c i * s_W b t (s i)) /\
    (forall i j, (i < k)%nat -> (j < n)%nat -> s_H o i j = d i * s_H b (s i) j).
Definition varies (m n k : nat) (b : solution) : Prop := forall i, (i < k)%nat -> cov m (fun t => s_W b t i) (fun t => s_W b t i) <> 0 /\ cov n (s_H b i) (s_H b i) <> 0.

Theorem C55_recovers_base : forall (cpus m n k : nat) (method : string) (b : solution) (sols : list solution) (o : solution) (s : nat -> nat),
  (1 < cpus)%nat -> (0 < m)%nat -> (0 < n)%nat -> (0 < k)%nat -> varies m n k b -> In o sols -> same_up_to_scale m n k b o s ->
  exists r, compare cpus m n k k (method_of method) b (map Some sols) = Done r /\ cmp_avg r = Fin 1 /\ tried k k (co_map (cmp_best r)).
Proof.
  intros cpus m n k method b sols o s Hc Hm Hn Hk Hv Ho (Hb & c & d & Hcd & HW & HH).
  assert (Hsb : forall i, (i < k)%nat -> (s i < k)%nat) by (intros i Hi; apply Hb, Hi).
  set (p0 := map s (seq 0 k)). assert (Lp : List.length p0 = k) by (unfold p0; rewrite map_length, seq_length; reflexivity).
  assert (Tp : tried k k p0).
  { unfold tried. rewrite Nat.leb_refl. split; [exact Lp|]. split.
    - unfold p0. assert (NM : forall l, NoDup l -> (forall x, In x l -> (x < k)%nat) -> NoDup (map s l)).
      { clear - Hb. induction l as [|x l IH]; intros H B; [constructor|]. inversion H; subst. cbn. constructor.
        - intros Hin. apply in_map_iff in Hin. destruct Hin as (y & Ey & Hy). apply H2. assert (x = y); [|congruence]. apply (proj2 Hb); [apply B; left; reflexivity|apply B; right; exact Hy|congruence].
        - apply IH; [exact H3|]. intros y Hy. apply B. right. exact Hy. }
      apply NM; [apply seq_NoDup|]. intros x Hx. apply in_seq in Hx. lia.
    - intros x Hx. unfold p0 in Hx. apply in_map_iff in Hx. destruct Hx as (i & <- & Hi). apply in_seq in Hi. apply Hsb. lia. }
  assert (PO : pairs_of true p0 = map (fun i => (s i, i)) (seq 0 k)).
  { unfold pairs_of. rewrite Lp. apply map_ext_in. intros i Hi. apply in_seq in Hi. f_equal. unfold p0. rewrite (nth_indep _ 0%nat (s 0%nat)) by (rewrite map_length, seq_length; lia). rewrite map_nth, seq_nth by lia. reflexivity. }
  assert (Av : forall f, (forall i, (i < k)%nat -> f (s i) i = Fin 1) -> avg_over (pairs_of true p0) f = Fin 1).
  { intros f Hf. unfold avg_over. rewrite PO. apply lmean_ones; [destruct k; [lia|discriminate]|]. apply Forall_forall. intros x Hx. rewrite map_map in Hx. apply in_map_iff in Hx. destruct Hx as (i & <- & Hi). apply in_seq in Hi. cbn [fst snd]. apply Hf. lia. }
  assert (One : forall N x a (y : nat -> R), a <> 0 -> cov N x x <> 0 -> (forall i, (i < N)%nat -> y i = a * x i) -> r2 N y x = Fin 1).
  { intros N x a y Ha Hx Hy. assert (E : r2 N y x = r2 N (fun i => a * x i) (fun i => 1 * x i)) by (apply r2_ext; [exact Hy|intros i Hi; ring]). rewrite E, r2_scal by lra. apply r2_self, Hx. }
  assert (Sc : score method m n b o (pairs_of true p0) = Fin 1).
  { unfold score. rewrite !Av.
    - destruct (string_dec method "H"); [reflexivity|]. destruct (string_dec method "W"); [reflexivity|]. destruct (string_dec method "WH"); [reflexivity|]. cbn [fadd]. unfold fdiv. destruct (Req_EM_T 3 0); [lra|]. f_equal. field.
    - intros i Hi. destruct (Hcd i Hi) as [Hci Hdi]. destruct (Hv (s i) (Hsb i Hi)) as [V1 V2]. apply (One _ (share n b (s i)) (c i * d i)); [apply Rmult_integral_contrapositive_currified; assumption|apply share_varies; assumption|].
      intros t Ht. unfold share. assert (Ht1 : (t / n < m)%nat) by (apply Nat.div_lt_upper_bound; lia). assert (Ht2 : (t mod n < n)%nat) by (apply Nat.mod_upper_bound; lia). rewrite HW, HH by assumption. ring.
    - intros i Hi. destruct (Hcd i Hi) as [Hci _]. destruct (Hv (s i) (Hsb i Hi)) as [V1 _]. apply (One _ (fun t => s_W b t (s i)) (c i)); [exact Hci|exact V1|]. intros t Ht. apply HW; assumption.
    - intros i Hi. destruct (Hcd i Hi) as [_ Hdi]. destruct (Hv (s i) (Hsb i Hi)) as [_ V2]. apply (One _ (s_H b (s i)) (d i)); [exact Hdi|exact V2|]. intros j Hj. apply HH; assumption. }
  pose proof (C55_best cpus m n k k method b sols Hc) as B. cbv zeta in B. apply In_nth_error in Ho. destruct Ho as [i0 Hi0]. assert (Li : (i0 < List.length sols)%nat) by (apply nth_error_Some; congruence).
  assert (S0 : score_of method m n k k b sols i0 p0 = Fin 1) by (unfold score_of; rewrite Hi0, Nat.leb_refl; exact Sc).
  destruct (compare cpus m n k k (method_of method) b (map Some sols)) as [r| | |]; try contradiction.
  - destruct B as (B1 & B2 & B3 & B4 & B5 & _). exists r. split; [reflexivity|]. split; [|exact B2]. specialize (B5 i0 p0 Li Tp). rewrite S0 in B5.
    assert (U : unit_or_nan (cmp_avg r)). { rewrite B3. unfold score_of. destruct (nth_error sols (cmp_model r)); [apply score_unit|left; reflexivity]. }
    destruct U as [U|(v & U & Hv')]; rewrite U in *; [discriminate|]. cbn in B5. apply Rltb_false in B5. f_equal. lra.
  - exfalso. specialize (B i0 p0 Li Tp). rewrite S0 in B. cbn in B. apply Rltb_false in B. lra.
Qed.
Print Assumptions C55_recovers_base.
(** Two factors swapped and rescaled. *)
Example C55_recovers_instance :
  let b := mkSol (fun t i => if (t =? i)%nat then 1 else 0) (fun i j => if (i =? j)%nat then 1 else 0) in
  let o := mkSol (fun t i => if (t =? 1 - i)%nat then 3 else 0) (fun i j => if (1 - i =? j)%nat then 2 else 0) in
  varies 2 2 2 b /\ same_up_to_scale 2 2 2 b o (fun i => (1 - i)%nat).
Proof.
  intros b o. split.
  - intros [|[|i]] Hi; [| |lia]; unfold cov, mean, b; cbn [s_W s_H rsum Nat.eqb INR]; split; lra.
  - split.
    + split; intros; lia.
    + exists (fun _ => 3), (fun _ => 2). split; [intros; lra|]. split.
      * intros t i Ht Hi. unfold o, b. cbn [s_W]. destruct (t =? 1 - i)%nat; ring.
      * intros i j Hi Hj. unfold o, b. cbn [s_H]. destruct (1 - i =? j)%nat; ring.
Qed.

(** ** The printed Q of the base solution *)
Theorem C55_printed_base_Q : forall (m n k : nat) (V U : mat) (b : solution), mall m n (fun x => x <> 0) V ->
  printed_base_Q m n k V U b = msum m n (fun t j => (1 - mmul k (s_W b) (s_H b) t j / V t j) * (1 - mmul k (s_W b) (s_H b) t j / V t j)).
Proof.
  intros m n k V U b HV. unfold printed_base_Q, q_loss. cbv zeta. apply rsum_ext. intros t Ht. apply rsum_ext. intros j Hj. unfold resid. field. apply HV; assumption.
Qed.
Print Assumptions C55_printed_base_Q.
Example C55_printed_base_Q_example :=
  C55_printed_base_Q 2 2 1 (fun i j => INR (S (i + j))) (fun _ _ => 3) (mkSol (fun _ _ => 1) (fun _ _ => 1)) ltac:(intros i j _ _; apply not_0_INR; lia).
Theorem C55_printed_base_Q_is_Q_refuted : exists (m n k : nat) (V U : mat) (b : solution), mall m n (fun x => 0 < x) V /\ mall m n (fun x => 0 < x) U /\
  printed_base_Q m n k V U b <> msum m n (fun t j => ((V t j - mmul k (s_W b) (s_H b) t j) / U t j) * ((V t j - mmul k (s_W b) (s_H b) t j) / U t j)).
Proof.
  exists 1%nat, 1%nat, 1%nat, (fun _ _ => 2), (fun _ _ => 1), (mkSol (fun _ _ => 1) (fun _ _ => 1)). split; [intros i j _ _; lra|]. split; [intros i j _ _; lra|].
  rewrite C55_printed_base_Q by (intros i j _ _; lra). unfold msum, mmul. cbn. lra.
Qed.
Print Assumptions C55_printed_base_Q_is_Q_refuted.

(** ** C81: loading PMF5 output *)
Lemma header_species width lines : forall found, (forall l, found = Some l -> In "species"%string l) -> forall l, header width lines found = Some l -> In "species"%string l.
Proof.
  induction lines as [|line t IH]; intros found Hf l H; cbn [header] in H; [apply Hf, H|]. destruct (_ && _ && _); [apply (IH _ ) in H; [exact H|]|apply (IH _ Hf l H)]. intros l' [= <-]. right. left. reflexivity.
Qed.
(** No input is ever loaded: the call returns nothing for a missing file and
    otherwise raises. *)
Theorem C81_never_loads : forall (num : string -> bool) (factors n : nat) (profile contribution : option (list (list string))),
  (forall lines head, contribution = Some lines -> nth_error lines 3 = Some head -> ~ In "species"%string (skipn 2 head)) ->
  load_pmf num factors n profile contribution <> Done Loaded /\
  (load_pmf num factors n profile contribution = Done NoFile <-> profile = None \/ contribution = None).
Proof.
  intros num factors n profile contribution Hs. assert (G : load_pmf num factors n profile contribution <> Done Loaded).
  { unfold load_pmf. destruct profile as [pl|]; [|discriminate]. destruct contribution as [cl|]; [|discriminate]. destruct (header _ pl None) as [labels|] eqn:Eh; [|discriminate].
    destruct (negb (cells_ok _ _ _)); [discriminate|]. destruct (nth_error cl 3) as [head|] eqn:E3; [|discriminate]. destruct (negb (rows_ok _ _ _)); [discriminate|].
    destruct (forallb _ _) eqn:Ef; [|discriminate]. exfalso. rewrite forallb_forall in Ef. assert (Hin : In "species"%string (drop_name "run" labels)).
    { unfold drop_name. apply filter_In. split; [|reflexivity]. apply (header_species _ _ _ (fun l (E : None = Some l) => ltac:(discriminate)) _ Eh). }
    specialize (Ef _ Hin). apply existsb_exists in Ef. destruct Ef as (x & Hx & E). apply String.eqb_eq in E. subst x. apply in_app_or in Hx. destruct Hx as [Hx|[Hx|[]]]; [|discriminate]. exact (Hs cl head eq_refl E3 Hx). }
  split; [exact G|]. split.
  - intros H. unfold load_pmf in H. destruct profile as [pl|]; [|left; reflexivity]. destruct contribution as [cl|]; [|right; reflexivity]. exfalso. destruct (header _ pl None); [|discriminate].
    destruct (negb (cells_ok _ _ _)); [discriminate|]. destruct (nth_error cl 3); [|discriminate]. destruct (negb (rows_ok _ _ _)); [discriminate|]. destruct (forallb _ _); discriminate.
  - intros [-> | ->]; [reflexivity|]. unfold load_pmf. destruct profile; reflexivity.
Qed.
Print Assumptions C81_never_loads.
Example C81_never_loads_example :=
  C81_never_loads (fun _ => true) 2 1 (Some [["";"";"Factor 1";"Factor 2"]]%string) (Some [[""];[""];[""];["";"";"Factor 1";"Factor 2"]]%string)
    ltac:(intros lines head E1 E2; injection E1 as <-; injection E2 as <-; cbn; intros [Hc | [Hc | []]]; discriminate).
(** Which error: with a header of distinct names and a contribution file that can
    be read, a cell under one of the factors that is no number in one of the first
    n data lines of the profile file makes it ValueError, otherwise it is KeyError. *)
Definition data_line (width : nat) (line : list string) : Prop :=
  List.length line = width /\ ~ (nth 0 line EmptyString = EmptyString /\ nth 1 line EmptyString = EmptyString).
Lemma body_lines width n lines row : In row (body width n lines) -> data_line width row.
Proof.
  intros H. unfold body in H. assert (H' : In row (filter (fun line => (List.length line =? width)%nat && negb (String.eqb (nth 0 line EmptyString) EmptyString && String.eqb (nth 1 line EmptyString) EmptyString)) lines)).
  { revert H. generalize (filter (fun line => (List.length line =? width)%nat && negb (String.eqb (nth 0 line EmptyString) EmptyString && String.eqb (nth 1 line EmptyString) EmptyString)) lines). intros l. revert l. induction n as [|n IH]; intros [|x l]; cbn; try tauto. intros [->|H]; [left; reflexivity|right; auto]. }
  apply filter_In in H'. destruct H' as [_ H']. apply andb_prop in H'. destruct H' as [H1 H2]. apply Nat.eqb_eq in H1. split; [exact H1|].
  intros [E1 E2]. rewrite E1, E2 in H2. discriminate.
Qed.
(** the number of data lines among [lines] *)
Inductive data_lines (width : nat) : list (list string) -> nat -> Prop :=
| DL_nil : data_lines width [] 0
| DL_yes line t k : data_line width line -> data_lines width t k -> data_lines width (line :: t) (S k)
| DL_no line t k : ~ data_line width line -> data_lines width t k -> data_lines width (line :: t) k.
(** [row] is one of the first [n] data lines *)
Definition one_of_first (width n : nat) (lines : list (list string)) (row : list string) : Prop :=
  exists pre post k, lines = (pre ++ row :: post)%list /\ data_line width row /\ data_lines width pre k /\ (k < n)%nat.
Lemma body_first width n lines row : In row (body width n lines) <-> one_of_first width n lines row.
Proof.
  unfold body. set (p := fun line => (List.length line =? width)%nat && negb (String.eqb (nth 0 line EmptyString) EmptyString && String.eqb (nth 1 line EmptyString) EmptyString)).
  assert (P : forall line, if p line then data_line width line else ~ data_line width line).
  { intros line. unfold p, data_line. destruct (Nat.eqb_spec (List.length line) width) as [E|E]; cbn [andb]; [|tauto].
    destruct (String.eqb_spec (nth 0 line EmptyString) EmptyString), (String.eqb_spec (nth 1 line EmptyString) EmptyString); cbn; tauto. }
  revert n. induction lines as [|line t IH]; intros n.
  - cbn. rewrite firstn_nil. split; [intros []|]. intros (pre & post & k & E & _). destruct pre; discriminate.
  - cbn [filter]. pose proof (P line) as Pl. destruct (p line) eqn:El.
    + destruct n as [|n]; cbn [firstn].
      * split; [intros []|]. intros (pre & post & k & _ & _ & _ & H). lia.
      * cbn [In]. rewrite IH. split.
        -- intros [->|(pre & post & k & -> & Hd & Hk & Hn)]; [exists [], t, 0%nat; repeat split; try assumption; try apply Pl; [constructor|lia]|].
           exists (line :: pre), post, (S k). repeat split; try apply Hd; [constructor; assumption|lia].
        -- intros (pre & post & k & E & Hd & Hk & Hn). destruct pre as [|a pre]; injection E as E1 E2; [left; exact E1|right]. subst a.
           inversion Hk as [|? ? k' Ha Hk'|? ? k' Ha Hk']; subst; [|contradiction]. exists pre, post, k'. repeat split; try apply Hd; [exact Hk'|lia].
    + rewrite IH. split.
      * intros (pre & post & k & -> & Hd & Hk & Hn). exists (line :: pre), post, k. repeat split; try apply Hd; [apply DL_no; assumption|lia].
      * intros (pre & post & k & E & Hd & Hk & Hn). destruct pre as [|a pre]; injection E as E1 E2; [subst; contradiction|]. subst a.
        inversion Hk as [|? ? k' Ha Hk'|? ? k' Ha Hk']; subst; [contradiction|]. exists pre, post, k. repeat split; try apply Hd; [exact Hk'|lia].
Qed.
Lemma header_shape width lines : forall found, (forall l, found = Some l -> (exists t, l = "run" :: "species" :: t)%string /\ (2 <= width -> List.length l = width)%nat) ->
  forall l, header width lines found = Some l -> (exists t, l = "run" :: "species" :: t)%string /\ (2 <= width -> List.length l = width)%nat.
Proof.
  induction lines as [|line t IH]; intros found Hf l H; cbn [header] in H; [apply Hf, H|].
  destruct (_ && _ && _) eqn:E; [|exact (IH _ Hf l H)]. refine (IH _ _ l H). intros l' [= <-]. split; [eauto|].
  intros Hw. apply andb_prop in E. destruct E as [E _]. apply andb_prop in E. destruct E as [E _]. apply Nat.eqb_eq in E.
  change (S (S (List.length (skipn 2 line))) = width). rewrite skipn_length. lia.
Qed.
Lemma cells_ok_spec num labels rows tl : (labels = "run" :: "species" :: tl)%string -> NoDup labels -> (forall row, In row rows -> List.length row = List.length labels) ->
  (cells_ok num labels rows = true <-> forall row p, In row rows -> (2 <= p < List.length labels)%nat -> num (nth p row EmptyString) = true).
Proof.
  intros El Hd Hl. subst labels. inversion Hd as [|x l N1 D1 Ex]; subst. inversion D1 as [|y l N2 D2 Ey]; subst.
  assert (Ek : drop_name "run" ("run" :: "species" :: tl)%string = ("species" :: tl)%string).
  { unfold drop_name. cbn [filter]. rewrite String.eqb_refl. cbn [negb]. cbn -[filter].
    assert (F : forall t, ~ In "run"%string t -> filter (fun y => negb (String.eqb "run" y)) t = t).
    { induction t as [|z t IHt]; intros Hz; [reflexivity|]. cbn [filter]. destruct (String.eqb_spec "run" z) as [Ez|]; [exfalso; apply Hz; left; symmetry; exact Ez|]. cbn [negb]. f_equal. apply IHt. intros ?; apply Hz; right; assumption. }
    apply (F ("species" :: tl)%string N1). }
  unfold cells_ok. cbv zeta. rewrite Ek. cbn [skipn]. rewrite forallb_forall. split.
  - intros H row p Hr Hp. specialize (H row Hr). rewrite forallb_forall in H. specialize (Hl row Hr).
    assert (Hin : In (nth p ("run" :: "species" :: tl)%string EmptyString, nth p row EmptyString) (combine ("run" :: "species" :: tl)%string row)).
    { rewrite <- combine_nth by (symmetry; exact Hl). apply nth_In. rewrite combine_length, Hl. lia. }
    specialize (H _ Hin). cbn [fst snd] in H. destruct p as [|[|p]]; try lia. cbn [nth] in H.
    replace (existsb (String.eqb (nth p tl EmptyString)) tl) with true in H; [exact H|]. symmetry. apply existsb_exists. exists (nth p tl EmptyString). split; [apply nth_In; cbn in Hp; lia|apply String.eqb_refl].
  - intros H row Hr. apply forallb_forall. intros [a b] Hin. cbn [fst snd]. specialize (Hl row Hr).
    destruct (existsb (String.eqb a) tl) eqn:Ea; [|reflexivity]. cbn [negb orb]. apply existsb_exists in Ea. destruct Ea as (z & Hz & E). apply String.eqb_eq in E. subst z.
    apply (In_nth _ _ (EmptyString, EmptyString)) in Hin. destruct Hin as (p & Hp & E). rewrite combine_length, Hl, Nat.min_id in Hp. rewrite combine_nth in E by (symmetry; exact Hl). injection E as E1 E2.
    destruct p as [|[|p]].
    + exfalso. cbn in E1. subst a. apply N1. right. exact Hz.
    + exfalso. cbn in E1. subst a. apply N2. exact Hz.
    + rewrite <- E2. apply H; [exact Hr|lia].
Qed.
Theorem C81_which_error : forall (num : string -> bool) (factors n : nat) (profile contribution : list (list string)) (labels head : list string),
  header (factors + 2) profile None = Some labels -> NoDup labels ->
  nth_error contribution 3 = Some head -> ~ In "species"%string (skipn 2 head) ->
  (forall row, In row (skipn 4 contribution) -> (1 < List.length row)%nat ->
     List.length (skipn 2 row) = List.length (skipn 2 head) /\ forall x, In x (skipn 2 row) -> num x = true) ->
  let bad := exists row p, one_of_first (factors + 2) n profile row /\ (2 <= p < factors + 2)%nat /\ num (nth p row EmptyString) = false in
  (bad -> load_pmf num factors n (Some profile) (Some contribution) = ValErr) /\
  (~ bad -> load_pmf num factors n (Some profile) (Some contribution) = KeyErr).
Proof.
  intros num factors n profile contribution labels head Hh Hd H3 Hs Hc bad.
  destruct (header_shape (factors + 2) profile None (fun l (E : None = Some l) => ltac:(discriminate)) labels Hh) as [[tl El] Ell].
  specialize (Ell ltac:(lia)).
  pose proof (cells_ok_spec num labels (body (factors + 2) n profile) tl El Hd (fun row Hr => eq_trans (proj1 (body_lines _ _ _ _ Hr)) (eq_sym Ell))) as C.
  unfold load_pmf. rewrite Hh, H3.
  assert (R : rows_ok num (List.length (skipn 2 head)) (map (skipn 2) (filter (fun r => (1 <? List.length r)%nat) (skipn 4 contribution))) = true).
  { apply forallb_forall. intros r Hr. apply in_map_iff in Hr. destruct Hr as (row & <- & Hr). apply filter_In in Hr. destruct Hr as [Hr1 Hr2]. apply Nat.ltb_lt in Hr2.
    destruct (Hc row Hr1 Hr2) as [L A]. rewrite L, Nat.eqb_refl. cbn [andb]. apply forallb_forall. exact A. }
  rewrite R. cbn [negb].
  assert (K : forallb (fun c => existsb (String.eqb c) (skipn 2 head ++ ["Datetime"%string])%list) (drop_name "run" labels) = false).
  { destruct (forallb _ _) eqn:Ef; [|reflexivity]. exfalso. rewrite forallb_forall in Ef. assert (Hin : In "species"%string (drop_name "run" labels)).
    { unfold drop_name. apply filter_In. split; [|reflexivity]. rewrite El. right. left. reflexivity. }
    specialize (Ef _ Hin). apply existsb_exists in Ef. destruct Ef as (x & Hx & E). apply String.eqb_eq in E. subst x. apply in_app_or in Hx. destruct Hx as [Hx|[Hx|[]]]; [exact (Hs Hx)|discriminate]. }
  rewrite K. split.
  - intros (row & p & H1 & H2 & H4). apply body_first in H1. destruct (cells_ok _ _ _) eqn:E; [|reflexivity]. exfalso. rewrite (proj1 C eq_refl row p H1) in H4 by lia. discriminate.
  - intros N. rewrite (proj2 C); [reflexivity|]. intros row p H1 H2. destruct (num _) eqn:E; [reflexivity|]. exfalso. apply N. exists row, p. split; [apply body_first; exact H1|]. split; [lia|exact E].
Qed.
Print Assumptions C81_which_error.
Example C81_which_instance :
  let profile := [["";"";"Factor 1";"Factor 2"];["1";"Cl";"1.0";"x"]]%string in
  let contribution := [[""];[""];[""];["";"";"Factor 1";"Factor 2"];["1";"01/01/20";"1.0";"1.0"];[""]]%string in
  header 4 profile None = Some ["run";"species";"Factor 1";"Factor 2"]%string /\
  load_pmf (fun s => String.eqb s "1.0") 2 1 (Some profile) (Some contribution) = ValErr /\
  load_pmf (fun s => String.eqb s "1.0") 2 0 (Some profile) (Some contribution) = KeyErr.
Proof. repeat split; reflexivity. Qed.
(** A well-formed pair of files: the error is KeyError. *)
Theorem C81_well_formed_files_load_refuted : exists (num : string -> bool) (profile contribution : list (list string)), load_pmf num 1 1 (Some profile) (Some contribution) = KeyErr /\
  header 3 profile None = Some ["run"; "species"; "Factor 1"]%string /\ nth_error contribution 3 = Some [""; ""; "Factor 1"]%string.
Proof.
  exists (fun s => String.eqb s "1.0"), [["";"";"Factor 1"];["1";"Cl";"1.0"]]%string, [[""];[""];[""];["";"";"Factor 1"];["1";"01/01/20";"1.0"]]%string. repeat split; reflexivity.
Qed.
Print Assumptions C81_well_formed_files_load_refuted.
Example C81_instance : ~ In "species"%string (skipn 2 ["";"";"Factor 1";"Factor 2"]%string).
Proof. cbn. intuition discriminate. Qed.

