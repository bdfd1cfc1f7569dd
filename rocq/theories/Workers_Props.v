(** Properties of Workers_Model. *)
From Coq Require Import List Bool Arith ZArith Lia Permutation FunctionalExtensionality.
From Verif Require Import Boot_Model Boot_Proofs Boot_Props Workers_Model.
Import ListNotations.
Local Open Scope Z_scope.

(** ** Numbers of processes *)
Theorem C137_processes : forall cpu, 1 <= cpu ->
  (forall g, 0 < g -> disp_cores cpu g = g /\ boot_cpus cpu g = g) /\
  (forall g, g <= 0 -> 1 <= disp_cores cpu g <= cpu /\ boot_cpus cpu g = cpu - 1) /\
  (forall g, pool (disp_cores cpu g) = None) /\
  (forall g, pool (boot_cpus cpu g) = None <-> 0 < g \/ 2 <= cpu) /\
  (pool (estimator_processes cpu) = None <-> 2 <= cpu) /\ (pool (compare_processes cpu) = None <-> 2 <= cpu) /\
  (pool (perturb_processes cpu) = None <-> 2 <= cpu) /\ (pool (bsdisp_processes cpu) = None <-> 2 <= cpu) /\
  (4 * perturb_processes cpu <= 3 * cpu < 4 * perturb_processes cpu + 4) /\
  (forall g, g <= 0 -> 1 <= bsdisp_cores cpu g <= cpu) /\ (forall g, 0 < g -> bsdisp_cores cpu g <= g /\ 4 * bsdisp_cores cpu g <= 3 * cpu) /\
  (forall p e, pool p = Some e -> e = ValueError).
Proof.
  intros cpu Hc.
  assert (Q : 4 * three_quarters cpu <= 3 * cpu < 4 * three_quarters cpu + 4).
  { unfold three_quarters. rewrite Z.quot_div_nonneg by lia. pose proof (Z.mul_div_le (3 * cpu) 4). pose proof (Z.mul_succ_div_gt (3 * cpu) 4). lia. }
  unfold disp_cores, bsdisp_cores, boot_cpus, pool, estimator_processes, compare_processes, perturb_processes, bsdisp_processes.
  set (w := three_quarters cpu) in *. clearbody w.
  repeat match goal with |- _ /\ _ => split end; intros;
    repeat match goal with |- context [0 <? ?b] => destruct (Z.ltb_spec 0 b) end;
    repeat match goal with |- context [?a <? ?b] => destruct (Z.ltb_spec a b) | H : context [?a <? ?b] |- _ => destruct (Z.ltb_spec a b) end;
    try split; intros; try discriminate; try lia; try (exfalso; lia); try reflexivity; try congruence.
Qed.
Print Assumptions C137_processes.

Theorem C137_every_machine_can_run_refuted :
  pool (boot_cpus 1 (-1)) = Some ValueError /\ pool (perturb_processes 1) = Some ValueError /\
  pool (estimator_processes 1) = Some ValueError /\ pool (compare_processes 1) = Some ValueError /\ bsdisp_cores 1 4 = 0.
Proof. repeat split. Qed.
Print Assumptions C137_every_machine_can_run_refuted.

(** ** Dictionaries *)
Lemma lookup_set {A} (d : list (nat * A)) k v k' : lookup (dict_set d k v) k' = if (k =? k')%nat then Some v else lookup d k'.
Proof.
  induction d as [|[a b] d IH]; cbn; [reflexivity|].
  destruct (Nat.eqb_spec a k) as [-> | N]; cbn; [destruct (k =? k')%nat; reflexivity|].
  rewrite IH. destruct (Nat.eqb_spec a k'), (Nat.eqb_spec k k'); congruence.
Qed.
Lemma keys_set {A} (d : list (nat * A)) k v : In k (map fst d) -> map fst (dict_set d k v) = map fst d.
Proof.
  induction d as [|[a b] d IH]; cbn; [intros []|]. intros H.
  destruct (Nat.eqb_spec a k) as [-> | N]; cbn; [reflexivity|]. f_equal. apply IH. destruct H; congruence.
Qed.
Lemma keys_set_new {A} (d : list (nat * A)) k v : ~ In k (map fst d) -> map fst (dict_set d k v) = map fst d ++ [k].
Proof. intros H. rewrite dict_set_fresh by exact H. rewrite map_app. reflexivity. Qed.
Lemma lookup_in {A} (d : list (nat * A)) k : In k (map fst d) -> exists v, lookup d k = Some v.
Proof.
  induction d as [|[a b] d IH]; cbn; [intros []|]. intros H. destruct (Nat.eqb_spec a k); [eauto|]. apply IH. destruct H; congruence.
Qed.
Lemma lookup_fold {A} (l d : list (nat * A)) k : NoDup (map fst l) ->
  lookup (fold_left (fun d p => dict_set d (fst p) (snd p)) l d) k = match lookup l k with Some v => Some v | None => lookup d k end.
Proof.
  revert d. induction l as [|[a b] l IH]; intros d ND; cbn; [reflexivity|]. inversion ND; subst. rewrite IH by assumption.
  rewrite lookup_set. destruct (Nat.eqb_spec a k) as [-> | N]; [|reflexivity].
  destruct (lookup l k) eqn:E; [|reflexivity]. exfalso. apply H1. clear - E.
  induction l as [|[x y] l IH]; cbn in *; [discriminate|]. destruct (Nat.eqb_spec x k); auto.
Qed.
Lemma all_runs_total {M} (f : nat -> M) work l : (forall i, In i l -> work i = Some (f i)) ->
  all_runs work l = Some (map (fun i => (i, f i)) l).
Proof.
  induction l as [|i l IH]; intros H; cbn; [reflexivity|]. rewrite H by (now left). rewrite IH by (intros; apply H; now right). reflexivity.
Qed.
Lemma lookup_map {M} (f : nat -> M) l k : lookup (map (fun i => (i, f i)) l) k = if in_dec Nat.eq_dec k l then Some (f k) else None.
Proof.
  induction l as [|i l IH]; [reflexivity|]. cbn [map lookup]. destruct (Nat.eqb_spec i k) as [-> | N].
  - destruct (in_dec Nat.eq_dec k (k :: l)) as [|C]; [reflexivity|]. exfalso. apply C. now left.
  - rewrite IH. destruct (in_dec Nat.eq_dec k l), (in_dec Nat.eq_dec k (i :: l)); try reflexivity; cbn in *; firstorder congruence.
Qed.
Lemma boot_seq_total {M} (rng : nat -> Z) (work : Z -> nat -> option M) f : (forall z i, work z i = Some (f z i)) ->
  forall todo i pos d, exists d', boot_seq rng work todo i pos d = ((pos + todo)%nat, d', None) /\
    (forall j, lookup d' j = if (i <=? j)%nat && (j <? i + todo)%nat then Some (f (rng (pos + (j - i))%nat) j) else lookup d j) /\
    (Permutation (map fst d) (seq 1 (i - 1)) -> (1 <= i)%nat -> Permutation (map fst d') (seq 1 (i + todo - 1))).
Proof.
  intros W. induction todo as [|t IH]; intros i pos d; cbn [boot_seq].
  - exists d. split; [f_equal; f_equal; lia|]. split.
    + intros j. destruct (Nat.leb_spec i j), (Nat.ltb_spec j (i + 0)); cbn; try reflexivity; lia.
    + intros P _. replace (i + 0 - 1)%nat with (i - 1)%nat by lia. exact P.
  - rewrite W. destruct (IH (S i) (S pos) (dict_set d i (f (rng pos) i))) as (d' & E & L & P). exists d'. rewrite E. split; [f_equal; f_equal; lia|]. split.
    + intros j. rewrite L, lookup_set. destruct (Nat.eqb_spec i j) as [<- | N].
      * destruct (Nat.leb_spec (S i) i), (Nat.leb_spec i i), (Nat.ltb_spec i (i + S t)); cbn; try lia. replace (pos + (i - i))%nat with pos by lia. reflexivity.
      * destruct (Nat.leb_spec (S i) j), (Nat.leb_spec i j), (Nat.ltb_spec j (S i + t)), (Nat.ltb_spec j (i + S t)); cbn; try lia; try reflexivity.
        do 3 f_equal. lia.
    + intros P0 Hi. replace (i + S t - 1)%nat with (S i + t - 1)%nat by lia. apply P; [|lia].
      assert (N : ~ In i (map fst d)). { intros C. apply (Permutation_in _ P0) in C. apply in_seq in C. lia. }
      rewrite keys_set_new by exact N. replace (S i - 1)%nat with (S (i - 1)) by lia. rewrite seq_S. replace (1 + (i - 1))%nat with i by lia.
      apply Permutation_app_tail, P0.
Qed.

(** ** Bootstrap *)
(** Whether the runs of a bootstrap can start. *)
Definition can_start {M} (b : boot M) : Prop := bo_parallel b = false \/ 1 <= bo_cpus b.
(** A call of run: the runs take the next n numbers of the generator in order of
    their own numbers, in either mode, and replace the results of a previous call. *)
Theorem C137_bootstrap_run : forall {M} (rng : nat -> Z) (work : Z -> nat -> option M) f sched (b : boot M),
  (forall z i, work z i = Some (f z i)) -> Permutation sched (seq 1 (bo_n b)) -> can_start b ->
  exists b', boot_run rng work sched b = (b', None) /\ bo_n b' = bo_n b /\ bo_pos b' = (bo_pos b + bo_n b)%nat /\ bo_tables b' = true /\
    (forall i, (1 <= i <= bo_n b)%nat -> lookup (bo_results b') i = Some (f (rng (bo_pos b + i - 1)%nat) i)) /\
    (forall i, ~ (1 <= i <= bo_n b)%nat -> lookup (bo_results b') i = lookup (bo_results b) i) /\
    (bo_results b = [] -> Permutation (map fst (bo_results b')) (seq 1 (bo_n b))).
Proof.
  intros M rng work f sched b W P C. unfold boot_run. destruct (bo_parallel b) eqn:Ep.
  - assert (pool (bo_cpus b) = None) as ->. { unfold pool. destruct C; [congruence|]. destruct (Z.ltb_spec (bo_cpus b) 1); [lia|reflexivity]. }
    unfold par_runs. rewrite (all_runs_total (fun i => f (rng (bo_pos b + i - 1)%nat) i)) by (intros; apply W).
    eexists. split; [reflexivity|]. cbn. split; [reflexivity|]. split; [reflexivity|]. split; [reflexivity|].
    assert (Ek : map fst (map (fun i => (i, f (rng (bo_pos b + i - 1)%nat) i)) sched) = sched).
    { rewrite map_map. cbn. apply map_id. }
    assert (ND : NoDup sched). { apply (Permutation_NoDup (Permutation_sym P)), seq_NoDup. }
    assert (L : forall i, lookup (fold_left (fun d p => dict_set d (fst p) (snd p)) (map (fun i => (i, f (rng (bo_pos b + i - 1)%nat) i)) sched) (bo_results b)) i =
                 if in_dec Nat.eq_dec i sched then Some (f (rng (bo_pos b + i - 1)%nat) i) else lookup (bo_results b) i).
    { intros i. rewrite lookup_fold by (rewrite Ek; exact ND). rewrite lookup_map. destruct (in_dec Nat.eq_dec i sched); reflexivity. }
    assert (I : forall i, In i sched <-> (1 <= i <= bo_n b)%nat).
    { intros i. rewrite (Permutation_in' eq_refl P), in_seq. lia. }
    split; [|split].
    + intros i Hi. rewrite L. destruct (in_dec Nat.eq_dec i sched) as [|C']; [reflexivity|]. exfalso. apply C', I, Hi.
    + intros i Hi. rewrite L. destruct (in_dec Nat.eq_dec i sched) as [C'|]; [|reflexivity]. exfalso. apply Hi, I, C'.
    + intros ->. rewrite fold_dict_fresh; cbn [app]; rewrite Ek; [exact P|exact ND].
  - destruct (boot_seq_total rng work f W (bo_n b) 1 (bo_pos b) (bo_results b)) as (d' & -> & L & Pk).
    eexists. split; [reflexivity|]. cbn. split; [reflexivity|]. split; [reflexivity|]. split; [reflexivity|]. split; [|split].
    + intros i Hi. rewrite L. destruct (Nat.leb_spec 1 i), (Nat.ltb_spec i (1 + bo_n b)); cbn; try lia. do 3 f_equal. lia.
    + intros i Hi. rewrite L. destruct (Nat.leb_spec 1 i), (Nat.ltb_spec i (1 + bo_n b)); cbn; try lia; reflexivity.
    + intros E. rewrite E in Pk. specialize (Pk (Permutation_refl _) (le_n 1)). replace (1 + bo_n b - 1)%nat with (bo_n b) in Pk by lia. exact Pk.
Qed.
Print Assumptions C137_bootstrap_run.

(** A parallel bootstrap without processes raises and keeps its results, but its
    numbers are used up: a later call takes the following ones. *)
Theorem C137_bootstrap_without_processes : forall {M} (rng : nat -> Z) (work : Z -> nat -> option M) sched (b : boot M),
  ~ can_start b ->
  exists b', boot_run rng work sched b = (b', Some ValueError) /\ bo_results b' = bo_results b /\ bo_tables b' = bo_tables b /\
    bo_pos b' = (bo_pos b + bo_n b)%nat.
Proof.
  intros M rng work sched b C. unfold boot_run, can_start, pool in *.
  destruct (bo_parallel b); [|exfalso; apply C; now left]. destruct (Z.ltb_spec (bo_cpus b) 1) as [L|L]; [|exfalso; apply C; now right].
  eexists. split; [reflexivity|]. cbn. auto.
Qed.
Print Assumptions C137_bootstrap_without_processes.

Definition demo_work (z : Z) (i : nat) : option Z := Some (z * 10 + Z.of_nat i).
Example C137_bootstrap_instance :
  let b := new_boot 4 3 true (-1) : boot Z in
  bo_cpus b = 3 /\ can_start b /\
  let '(b1, e1) := boot_run (fun p => Z.of_nat p) demo_work [2; 1; 3]%nat b in
  let '(b2, e2) := boot_run (fun p => Z.of_nat p) demo_work [3; 1; 2]%nat b1 in
  e1 = None /\ bo_results b1 = [(2%nat, 12); (1%nat, 1); (3%nat, 23)] /\ e2 = None /\ bo_results b2 = [(2%nat, 42); (1%nat, 31); (3%nat, 53)] /\ bo_pos b2 = 6%nat.
Proof. cbn. unfold can_start. cbn. repeat split; try reflexivity. right. lia. Qed.

(** The same call twice: the same seed, but other numbers. *)
Theorem C137_second_call_repeats_refuted :
  exists (rng : nat -> Z) (work : Z -> nat -> option Z) sched (b : boot Z),
    can_start b /\ (forall z i, work z i <> None) /\ Permutation sched (seq 1 (bo_n b)) /\
    let b1 := fst (boot_run rng work sched b) in let b2 := fst (boot_run rng work sched b1) in
    map fst (bo_results b2) = map fst (bo_results b1) /\ bo_results b2 <> bo_results b1.
Proof.
  exists (fun p => Z.of_nat p), demo_work, [1; 2]%nat, (new_boot 4 2 true (-1)). split; [right; cbn; lia|].
  split; [intros z i; discriminate|]. split; [apply Permutation_refl|]. cbn. split; [reflexivity|discriminate].
Qed.
Print Assumptions C137_second_call_repeats_refuted.

(** ** BS-DISP *)
Definition count {A} (f : A -> bool) (l : list A) : nat := length (filter f l).

(** [r] calls of run in the sequence of modes given; the exceptions they raised. *)
Fixpoint calls {M D} (run : bool -> bsdisp M D -> bsdisp M D * option exn) (modes : list bool) (s : bsdisp M D) : bsdisp M D * list (option exn) :=
  match modes with
  | [] => (s, [])
  | p :: t => let '(s1, e) := run p s in let '(s2, es) := calls run t s1 in (s2, e :: es)
  end.

Lemma disp_seq_total {M D} cpu (disp : M -> option D) g : 1 <= cpu -> (forall m, disp m = Some (g m)) -> forall l d,
  disp_seq cpu disp l d = (fold_left (fun d p => dict_set d (fst p) (snd p)) (map (fun p => (fst p, g (snd p))) l) d, None).
Proof.
  intros Hc G. induction l as [|[k m] l IH]; intros d; cbn [disp_seq]; [reflexivity|].
  destruct (C137_processes cpu Hc) as (_ & _ & P & _). rewrite P, G, IH. reflexivity.
Qed.

Lemma fold_keys {A} (l d : list (nat * A)) : map fst l = map fst d -> NoDup (map fst d) ->
  map fst (fold_left (fun d p => dict_set d (fst p) (snd p)) l d) = map fst d.
Proof.
  intros E ND.
  assert (I : forall l d : list (nat * A), (forall k, In k (map fst l) -> In k (map fst d)) ->
    map fst (fold_left (fun d p => dict_set d (fst p) (snd p)) l d) = map fst d).
  { clear. induction l as [|[k v] l IH]; intros d H; cbn; [reflexivity|]. rewrite IH; cbn in H; rewrite keys_set by (apply H; now left); auto. }
  apply I. rewrite E. auto.
Qed.

Lemma count_drops_total {D} (drop : D -> bool) (x : nat -> D) d ks n : (forall k, In k ks -> lookup d k = Some (x k)) ->
  count_drops drop d ks n = ((n + count (fun k => drop (x k)) ks)%nat, None).
Proof.
  revert n. induction ks as [|k ks IH]; intros n H; cbn; [f_equal; unfold count; cbn; lia|].
  rewrite H by (now left). rewrite IH by (intros; apply H; now right). unfold count. cbn. destruct (drop (x k)); cbn; f_equal; lia.
Qed.

Lemma filter_lookup {D} (f : D -> bool) (x : nat -> D) d : NoDup (map fst d) -> (forall k, In k (map fst d) -> lookup d k = Some (x k)) ->
  length (filter (fun p : nat * D => f (snd p)) d) = count (fun k => f (x k)) (map fst d).
Proof.
  unfold count. induction d as [|[k v] d IH]; intros ND H; cbn; [reflexivity|]. inversion ND; subst.
  assert (E : v = x k). { specialize (H k (or_introl eq_refl)). cbn in H. rewrite Nat.eqb_refl in H. congruence. }
  assert (IH' : length (filter (fun p : nat * D => f (snd p)) d) = length (filter (fun k => f (x k)) (map fst d))).
  { apply IH; [assumption|]. intros k' Hk. specialize (H k' (or_intror Hk)). cbn in H. destruct (Nat.eqb_spec k k'); [subst; contradiction|exact H]. }
  subst v. destruct (f (x k)); cbn; congruence.
Qed.

Lemma count_perm {A} (f : A -> bool) l l' : Permutation l l' -> count f l = count f l'.
Proof. intros P. unfold count. induction P; cbn; repeat (match goal with |- context [f ?a] => destruct (f a) end); cbn; congruence. Qed.

Lemma keys_NoDup {D} (d : list (nat * D)) n : Permutation (map fst d) (seq 1 n) -> NoDup (map fst d).
Proof. intros P. apply (Permutation_NoDup (Permutation_sym P)), seq_NoDup. Qed.

(** One sequential call once the bootstrap is there. *)
Lemma bsd_step {M D} cpu rng work sched (disp : M -> option D) g drop swap (s : bsdisp M D) b n (m : nat -> M) :
  1 <= cpu -> (1 <= n)%nat -> (forall x, disp x = Some (g x)) -> bd_boot s = Some b -> bo_tables b = true ->
  Permutation (map fst (bo_results b)) (seq 1 n) -> (forall i, (1 <= i <= n)%nat -> lookup (bo_results b) i = Some (m i)) ->
  (bd_disp s = [] \/ map fst (bd_disp s) = map fst (bo_results b)) ->
  exists s', bsd_run cpu rng work sched disp drop swap false s = (s', None) /\ bd_boot s' = Some b /\ bd_compiled s' = true /\
    map fst (bd_disp s') = map fst (bo_results b) /\
    (forall i, (1 <= i <= n)%nat -> lookup (bd_disp s') i = Some (g (m i))) /\
    bd_drops s' = (bd_drops s + count (fun i => drop (g (m i))) (seq 1 (n - 1)))%nat /\
    bd_swaps s' = (bd_swaps s + count (fun i => swap (g (m i))) (seq 1 n))%nat.
Proof.
  intros Hc Hn G Eb Et P L Ed. unfold bsd_run, ensure_boot. rewrite Eb. cbv iota beta. rewrite Eb.
  rewrite (disp_seq_total cpu disp g Hc G).
  set (l := map (fun p => (fst p, g (snd p))) (bo_results b)).
  assert (Kl : map fst l = map fst (bo_results b)). { unfold l. rewrite map_map. reflexivity. }
  pose proof (keys_NoDup _ _ P) as ND.
  set (d := fold_left (fun d p => dict_set d (fst p) (snd p)) l (bd_disp s)).
  assert (Kd : map fst d = map fst (bo_results b)).
  { unfold d. destruct Ed as [-> | Ed].
    - rewrite fold_dict_fresh; cbn [app]; rewrite Kl; [reflexivity|exact ND].
    - rewrite fold_keys; [exact Ed|rewrite Kl; symmetry; exact Ed|rewrite Ed; exact ND]. }
  assert (Ll : forall i, lookup l i = option_map g (lookup (bo_results b) i)).
  { intros i. unfold l. clear. induction (bo_results b) as [|[k v] r IH]; cbn; [reflexivity|]. destruct (k =? i)%nat; [reflexivity|exact IH]. }
  assert (Ld : forall i, (1 <= i <= n)%nat -> lookup d i = Some (g (m i))).
  { intros i Hi. unfold d. rewrite lookup_fold by (rewrite Kl; exact ND). rewrite Ll, L by exact Hi. reflexivity. }
  assert (Len : length d = n). { rewrite <- (map_length fst d), Kd, (Permutation_length P). apply seq_length. }
  clearbody d. unfold bsd_compile. cbn [bd_disp bd_drops bd_boot bd_n bd_cores bd_compiled bd_swaps].
  destruct d as [|p0 d0]; [cbn in Len; lia|]. set (d := p0 :: d0) in *. clearbody d.
  rewrite (count_drops_total drop (fun i => g (m i))) by (intros k Hk; apply in_seq in Hk; apply Ld; lia).
  rewrite Len, Et. eexists. split; [reflexivity|]. cbn [bd_disp bd_drops bd_boot bd_n bd_cores bd_compiled bd_swaps].
  split; [reflexivity|]. split; [reflexivity|]. split; [exact Kd|]. split; [exact Ld|]. split; [reflexivity|]. f_equal.
  rewrite (filter_lookup swap (fun i => g (m i))).
  - apply count_perm. rewrite Kd. exact P.
  - rewrite Kd. exact ND.
  - intros k Hk. apply Ld. rewrite Kd in Hk. apply (Permutation_in _ P) in Hk. apply in_seq in Hk. lia.
Qed.

(** With two processors or more, any number of calls in the default mode complete.
    The bootstrap is run in the first call only; the numbers of drops and of swaps of
    every call are added to those of the calls before. *)
Theorem C137_bsdisp_calls : forall {M D} cpu rng work f sched (disp : M -> option D) g drop swap cores n r,
  2 <= cpu -> (1 <= n)%nat -> (forall z i, work z i = Some (f z i)) -> (forall m, disp m = Some (g m)) ->
  Permutation sched (seq 1 n) ->
  let result i := g (f (rng (i - 1)%nat) i) in
  let '(s, es) := calls (bsd_run cpu rng work sched disp drop swap) (repeat false (S r)) (new_bsdisp cpu n cores None) in
  es = repeat None (S r) /\ bd_compiled s = true /\
  (exists b, bd_boot s = Some b /\ bo_pos b = n /\ bo_n b = n /\
     forall i, (1 <= i <= n)%nat -> lookup (bo_results b) i = Some (f (rng (i - 1)%nat) i)) /\
  (forall i, (1 <= i <= n)%nat -> lookup (bd_disp s) i = Some (result i)) /\ Permutation (map fst (bd_disp s)) (seq 1 n) /\
  bd_drops s = (S r * count (fun i => drop (result i)) (seq 1 (n - 1)))%nat /\
  bd_swaps s = (S r * count (fun i => swap (result i)) (seq 1 n))%nat.
Proof.
  intros M D cpu rng work f sched disp g drop swap cores n r Hc Hn W G P result.
  set (b0 := new_boot cpu n true (-1) : boot M).
  assert (Cs : can_start b0). { right. cbn. unfold boot_cpus. cbn. lia. }
  destruct (C137_bootstrap_run rng work f sched b0 W P Cs) as (b & Eb & En & Ep & Et & L & _ & Pk). cbn in En, Ep, L, Pk. specialize (Pk eq_refl).
  assert (L' : forall i, (1 <= i <= n)%nat -> lookup (bo_results b) i = Some (f (rng (i - 1)%nat) i)) by exact L.
  assert (Step : forall s, bd_boot s = Some b -> (bd_disp s = [] \/ map fst (bd_disp s) = map fst (bo_results b)) ->
    exists s', bsd_run cpu rng work sched disp drop swap false s = (s', None) /\ bd_boot s' = Some b /\ bd_compiled s' = true /\
      map fst (bd_disp s') = map fst (bo_results b) /\ (forall i, (1 <= i <= n)%nat -> lookup (bd_disp s') i = Some (result i)) /\
      bd_drops s' = (bd_drops s + count (fun i => drop (result i)) (seq 1 (n - 1)))%nat /\
      bd_swaps s' = (bd_swaps s + count (fun i => swap (result i)) (seq 1 n))%nat).
  { intros s Es Ed. exact (bsd_step cpu rng work sched disp g drop swap s b n (fun i => f (rng (i - 1)%nat) i) ltac:(lia) Hn G Es Et Pk L' Ed). }
  set (mk := fun (a : nat) => mkBsd n (bsdisp_cores cpu cores) (Some b) ([] : list (nat * D)) false 0 0).
  assert (First : bsd_run cpu rng work sched disp drop swap false (new_bsdisp cpu n cores None) = bsd_run cpu rng work sched disp drop swap false (mk 0%nat)).
  { unfold bsd_run, ensure_boot, new_bsdisp, mk. cbn [bd_boot bd_n]. fold b0. rewrite Eb. cbn [bd_cores bd_disp bd_compiled bd_drops bd_swaps]. reflexivity. }
  assert (Many : forall q s, bd_boot s = Some b -> (bd_disp s = [] \/ map fst (bd_disp s) = map fst (bo_results b)) ->
    let '(s', es) := calls (bsd_run cpu rng work sched disp drop swap) (repeat false (S q)) s in
    es = repeat None (S q) /\ bd_compiled s' = true /\ bd_boot s' = Some b /\ map fst (bd_disp s') = map fst (bo_results b) /\
    (forall i, (1 <= i <= n)%nat -> lookup (bd_disp s') i = Some (result i)) /\
    bd_drops s' = (bd_drops s + S q * count (fun i => drop (result i)) (seq 1 (n - 1)))%nat /\
    bd_swaps s' = (bd_swaps s + S q * count (fun i => swap (result i)) (seq 1 n))%nat).
  { induction q as [|q IH]; intros s Es Ed; destruct (Step s Es Ed) as (s1 & E1 & B1 & C1 & K1 & L1 & D1 & W1).
    - cbn [repeat calls]. rewrite E1. cbn. repeat split; auto; lia.
    - change (repeat false (S (S q))) with (false :: repeat false (S q)). cbn [calls]. rewrite E1.
      specialize (IH s1 B1 (or_intror K1)). destruct (calls _ (repeat false (S q)) s1) as [s2 es]. destruct IH as (-> & C2 & B2 & K2 & L2 & D2 & W2).
      split; [reflexivity|]. rewrite D2, W2, D1, W1. repeat split; auto; lia. }
  specialize (Many r (mk 0%nat) eq_refl (or_introl eq_refl)).
  change (repeat false (S r)) with (false :: repeat false r) in *. cbn [calls] in *. rewrite First.
  destruct (bsd_run cpu rng work sched disp drop swap false (mk 0%nat)) as [s1 e1]. destruct (calls _ (repeat false r) s1) as [s2 es].
  destruct Many as (Ees & C2 & B2 & K2 & L2 & D2 & W2). split; [exact Ees|]. split; [exact C2|].
  split; [exists b; rewrite En, Ep; auto|]. split; [exact L2|]. split; [rewrite K2; exact Pk|]. cbn in D2, W2. split; [exact D2|exact W2].
Qed.
Print Assumptions C137_bsdisp_calls.

(** With one processor no call ever completes: the first raises ValueError whatever
    the mode, every later one in the default mode IndexError, for want of runs. *)
Theorem C137_bsdisp_one_processor : forall {M D} rng work sched (disp : M -> option D) drop swap cores n modes, (1 <= n)%nat ->
  let '(s, es) := calls (bsd_run 1 rng work sched disp drop swap) modes (new_bsdisp 1 n cores None) in
  es = match modes with [] => [] | _ :: t => Some ValueError :: map (fun p : bool => if p then Some ValueError else Some IndexError) t end /\
  bd_compiled s = false /\ bd_disp s = [].
Proof.
  intros M D rng work sched disp drop swap cores n modes Hn. destruct modes as [|p t]; [cbn; auto|]. cbn [calls].
  set (b := mkBoot n true 0 (0 + n) ([] : list (nat * M)) false).
  set (s0 := mkBsd n (bsdisp_cores 1 cores) (Some b) ([] : list (nat * D)) false 0 0).
  assert (E : bsd_run 1 rng work sched disp drop swap p (new_bsdisp 1 n cores None) = (s0, Some ValueError)) by reflexivity.
  rewrite E. clear E.
  assert (St : forall q, bsd_run 1 rng work sched disp drop swap q s0 = (s0, if q then Some ValueError else Some IndexError)).
  { intros []; reflexivity. }
  assert (H : calls (bsd_run 1 rng work sched disp drop swap) t s0 = (s0, map (fun p : bool => if p then Some ValueError else Some IndexError) t)).
  { induction t as [|q t IH]; cbn [calls map]; [reflexivity|]. rewrite St, IH. reflexivity. }
  rewrite H. auto.
Qed.
Print Assumptions C137_bsdisp_one_processor.

(** The number of cores given to BS-DISP changes nothing but the attribute. *)
Definition with_cores {M D} (c : Z) (s : bsdisp M D) : bsdisp M D :=
  mkBsd (bd_n s) c (bd_boot s) (bd_disp s) (bd_compiled s) (bd_drops s) (bd_swaps s).
Theorem C137_bsdisp_cores_ignored : forall {M D} cpu rng work sched (disp : M -> option D) drop swap parallel c s,
  bsd_run cpu rng work sched disp drop swap parallel (with_cores c s) =
  (with_cores c (fst (bsd_run cpu rng work sched disp drop swap parallel s)), snd (bsd_run cpu rng work sched disp drop swap parallel s)).
Proof.
  intros M D cpu rng work sched disp drop swap parallel c s.
  assert (Hc : forall s : bsdisp M D, bsd_compile drop swap (with_cores c s) = (with_cores c (fst (bsd_compile drop swap s)), snd (bsd_compile drop swap s))).
  { intros s1. unfold bsd_compile. cbn [bd_disp with_cores bd_drops bd_boot bd_n bd_compiled bd_swaps]. destruct (bd_disp s1); [reflexivity|].
    destruct (count_drops _ _ _ _) as [k [e|]]; reflexivity. }
  assert (He : ensure_boot cpu rng work sched (with_cores c s) =
               (with_cores c (fst (ensure_boot cpu rng work sched s)), snd (ensure_boot cpu rng work sched s))).
  { unfold ensure_boot. cbn [bd_boot with_cores bd_n]. destruct (bd_boot s); [reflexivity|]. destruct (boot_run _ _ _ _). reflexivity. }
  unfold bsd_run. rewrite He. destruct (ensure_boot cpu rng work sched s) as [s1 [e|]]; [reflexivity|]. cbn [fst snd].
  change (bd_boot (with_cores c s1)) with (bd_boot s1). destruct parallel.
  - destruct (pool _); [reflexivity|]. destruct (match bd_boot s1 with Some b => bo_results b | None => [] end); [apply Hc|reflexivity].
  - change (bd_disp (with_cores c s1)) with (bd_disp s1). destruct (disp_seq _ _ _ _) as [d [e|]]; [reflexivity|]. exact (Hc (mkBsd (bd_n s1) (bd_cores s1) (bd_boot s1) d (bd_compiled s1) (bd_drops s1) (bd_swaps s1))).
Qed.
Print Assumptions C137_bsdisp_cores_ignored.

Definition bs_demo (r : nat) : bsdisp Z Z * list (option exn) :=
  calls (bsd_run 4 (fun p => Z.of_nat p) demo_work [2; 1]%nat (fun m => Some m) (fun _ => true) (fun _ => true)) (repeat false r) (new_bsdisp 4 2 0 None).
(** After three calls of two runs each, the log says "# of DISP swaps: 6". *)
Theorem C137_swaps_at_most_runs_refuted :
  snd (bs_demo 3) = [None; None; None] /\ bd_n (fst (bs_demo 3)) = 2%nat /\ bd_swaps (fst (bs_demo 3)) = 6%nat /\ bd_drops (fst (bs_demo 3)) = 3%nat.
Proof. cbv. auto. Qed.
Print Assumptions C137_swaps_at_most_runs_refuted.

(** ** Perturbation *)
Lemma starmap_total {X} (f : nat * Z -> option X) (g : nat * Z -> X) l : (forall a, In a l -> f a = Some (g a)) -> starmap f l = Some (map g l).
Proof. induction l as [|a l IH]; intros H; cbn; [reflexivity|]. rewrite H by (now left). rewrite IH by (intros; apply H; now right). reflexivity. Qed.
Lemma starmap_none {X} (f : nat * Z -> option X) l a : In a l -> f a = None -> starmap f l = None.
Proof. induction l as [|b l IH]; intros H E; [destruct H|]. cbn. destruct H as [-> | H]; [rewrite E; reflexivity|]. rewrite (IH H E). destruct (f b); reflexivity. Qed.

(** With two processors or more: the base model is the given one, else the one trained
    in the first call; the models of every call stand in their order and take the next
    numbers of the generator; a number over 127 makes the call raise and keep the old
    models. *)
Theorem C137_perturbation_run : forall {B X} cpu rng train (work : B -> nat -> Z -> option X) (w : B -> nat -> Z -> X) (p : pert B X) base,
  2 <= cpu -> (match pt_base p with Some b => Some b | None => train end) = Some base ->
  (forall b i z, work b i z = if (i <=? 127)%nat then Some (w b i z) else None) ->
  let '(p', e) := pert_run cpu rng train work p in
  pt_base p' = Some base /\ pt_pos p' = (pt_pos p + pt_models p)%nat /\
  ((pt_models p <= 128)%nat -> e = None /\ exists l, pt_results p' = Some l /\ length l = pt_models p /\
     forall i, (i < pt_models p)%nat -> nth_error l i = Some (w base i (rng (pt_pos p + i)%nat))) /\
  ((128 < pt_models p)%nat -> e = Some WorkError /\ pt_results p' = pt_results p).
Proof.
  intros B X cpu rng train work w p base Hc Eb W. unfold pert_run. rewrite Eb.
  assert (pool (perturb_processes cpu) = None) as ->. { destruct (C137_processes cpu ltac:(lia)) as (_ & _ & _ & _ & _ & _ & P & _). apply P, Hc. }
  set (l := map (fun i => (i, rng (pt_pos p + i)%nat)) (seq 0 (pt_models p))).
  destruct (le_lt_dec (pt_models p) 128) as [Hm|Hm].
  - rewrite (starmap_total _ (fun a => w base (fst a) (snd a))).
    2:{ intros a Ha. unfold l in Ha. apply in_map_iff in Ha. destruct Ha as (i & <- & Hi). apply in_seq in Hi. cbn [fst snd]. rewrite W.
        destruct (Nat.leb_spec i 127); [reflexivity|lia]. }
    cbn. split; [reflexivity|]. split; [reflexivity|]. split; [|lia]. intros _. split; [reflexivity|]. eexists. split; [reflexivity|].
    unfold l. rewrite map_map, map_length, seq_length. split; [reflexivity|]. intros i Hi. cbn [fst snd].
    erewrite map_nth_error; [reflexivity|]. apply (nth_seq 0 (pt_models p) i Hi).
  - rewrite (starmap_none _ l (128%nat, rng (pt_pos p + 128)%nat)).
    + cbn. repeat split; auto; lia.
    + unfold l. apply in_map_iff. exists 128%nat. split; [reflexivity|]. apply in_seq. lia.
    + cbn [fst snd]. rewrite W. reflexivity.
Qed.
Print Assumptions C137_perturbation_run.

(** With one processor the base model is trained and kept, nothing else. *)
Theorem C137_perturbation_one_processor : forall {B X} rng train (work : B -> nat -> Z -> option X) (p : pert B X),
  pert_run 1 rng train work p =
  match pt_base p, train with
  | None, None => (p, Some WorkError)
  | Some b, _ | None, Some b => (mkPert (pt_models p) (Some b) (pt_pos p) (pt_results p), Some ValueError)
  end.
Proof. intros. unfold pert_run. destruct (pt_base p), train; reflexivity. Qed.
Print Assumptions C137_perturbation_one_processor.

Example C137_perturbation_instance :
  let run := pert_run 2 (fun q => Z.of_nat q * 7) (Some 5) (fun b i z => if (i <=? 127)%nat then Some (b + Z.of_nat i * 100 + z) else None) in
  let '(p1, e1) := run (new_pert 2 None) in let '(p2, e2) := run p1 in
  e1 = None /\ pt_results p1 = Some [5; 112] /\ e2 = None /\ pt_results p2 = Some [19; 126] /\ pt_base p2 = Some 5.
Proof. cbv. auto. Qed.

Example C137_processes_example := C137_processes 4 ltac:(lia).
Definition xwk_b : boot Z := new_boot 4 3 true (-1).
Lemma xwk_perm : Permutation [2; 1; 3]%nat (seq 1 3).
Proof. apply perm_swap. Qed.
Example C137_bootstrap_run_example :=
  C137_bootstrap_run (fun p => Z.of_nat p) demo_work (fun z i => z * 10 + Z.of_nat i) [2; 1; 3]%nat xwk_b (fun _ _ => eq_refl) xwk_perm (proj1 (proj2 C137_bootstrap_instance)).
Example C137_bootstrap_without_processes_example :=
  C137_bootstrap_without_processes (fun p => Z.of_nat p) demo_work [2; 1; 3]%nat (new_boot 1 3 true (-1) : boot Z) ltac:(intros [Hc | Hc]; cbn in Hc; [discriminate | lia]).
Example C137_bsdisp_calls_example :=
  C137_bsdisp_calls 4 (fun p => Z.of_nat p) demo_work (fun z i => z * 10 + Z.of_nat i) [2; 1]%nat (fun m => Some m) (fun m => m) (fun x => x <? 15) (fun _ => true) 0 2 1
    ltac:(lia) ltac:(lia) (fun _ _ => eq_refl) (fun _ => eq_refl) (perm_swap 1%nat 2%nat []).
Example C137_bsdisp_one_processor_example :=
  C137_bsdisp_one_processor (fun p => Z.of_nat p) demo_work [2; 1]%nat (fun m => Some m) (fun _ => true) (fun _ => true) 0 2 [false; true; false] ltac:(lia).
Example C137_bsdisp_cores_ignored_example :=
  C137_bsdisp_cores_ignored 4 (fun p => Z.of_nat p) demo_work [2; 1]%nat (fun m : Z => Some m) (fun _ => true) (fun _ => true) false 3 (new_bsdisp 4 2 0 None).
Example C137_perturbation_run_example :=
  C137_perturbation_run 2 (fun q => Z.of_nat q * 7) (Some 5) (fun b i z => if (i <=? 127)%nat then Some (b + Z.of_nat i * 100 + z) else None) (fun b i z => b + Z.of_nat i * 100 + z) (new_pert 2 None) 5
    ltac:(lia) eq_refl (fun _ _ _ => eq_refl).
Example C137_perturbation_one_processor_example :=
  C137_perturbation_one_processor (fun q => Z.of_nat q * 7) (Some 5) (fun b i z => Some (b + Z.of_nat i * 100 + z)) (new_pert 2 None).
