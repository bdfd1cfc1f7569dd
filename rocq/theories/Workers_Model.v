(** Model of the process pools of the error estimates and evaluations, and of what
    their objects keep between calls: esat/error/bootstrap.py 94-95, 401-455;
    esat/error/displacement.py 80, 339, 495; esat/error/bs_disp.py 94, 141-201,
    215-266; eval/perturbation.py 112-145; esat/estimator.py 137;
    eval/factor_comparison.py 300.  The numbers a seeded generator yields are a
    function of their position; the work of a process, its exceptions and the order
    of arrival are arguments.  Not modelled: log lines, progress bars, metadata,
    a pool killed from outside, and the tables a bootstrap compiles (they exist or
    not; their contents are in Boot_Model and BootTab_Model). *)
From Coq Require Import List Bool Arith ZArith.
From Verif Require Import Boot_Model.
Import ListNotations.
Local Open Scope Z_scope.

Inductive exn := ValueError | IndexError | KeyError | TypeError | AttributeError | WorkError.

(** multiprocessing.Pool(processes=p) refuses less than one process. *)
Definition pool (p : Z) : option exn := if p <? 1 then Some ValueError else None.
(** int(cpu_count() * 0.75) *)
Definition three_quarters (cpu : Z) : Z := Z.quot (3 * cpu) 4.
(** bootstrap.py 95 *)
Definition boot_cpus (cpu cpus : Z) : Z := if 0 <? cpus then cpus else cpu - 1.
(** displacement.py 80 *)
Definition disp_cores (cpu cores : Z) : Z := if 0 <? cores then cores else Z.max (three_quarters cpu) 1.
(** bs_disp.py 94 *)
Definition bsdisp_cores (cpu cores : Z) : Z :=
  if 0 <? cores then Z.min cores (three_quarters cpu) else Z.max (three_quarters cpu) 1.
(** bs_disp.py 165 *)
Definition bsdisp_processes (cpu : Z) : Z := three_quarters cpu.
(** perturbation.py 121 *)
Definition perturb_processes (cpu : Z) : Z := three_quarters cpu.
(** estimator.py 137 *)
Definition estimator_processes (cpu : Z) : Z := cpu - 1.
(** factor_comparison.py 300 *)
Definition compare_processes (cpu : Z) : Z := cpu - 1.

(** ** Bootstrap *)
Section Boot.
Context {M : Type}.
(** [bo_pos]: numbers drawn from the generator so far; [bo_tables]: the tables were
    compiled (mapping_df is not None). *)
Record boot := mkBoot { bo_n : nat; bo_parallel : bool; bo_cpus : Z; bo_pos : nat;
                        bo_results : list (nat * M); bo_tables : bool }.
(** lines 61-110 *)
Definition new_boot (cpu : Z) (n : nat) (parallel : bool) (cpus : Z) : boot :=
  mkBoot n parallel (boot_cpus cpu cpus) 0 [] false.
(** lines 419-455: one number, then one run, at a time. *)
Fixpoint boot_seq (rng : nat -> Z) (work : Z -> nat -> option M) (todo i pos : nat) (d : list (nat * M))
    : nat * list (nat * M) * option exn :=
  match todo with
  | O => (pos, d, None)
  | S t => match work (rng pos) i with
           | None => (S pos, d, Some WorkError)
           | Some m => boot_seq rng work t (S i) (S pos) (dict_set d i m)
           end
  end.
(** lines 345-376, 401-455; [sched]: order in which the runs 1..n finish. *)
Definition boot_run (rng : nat -> Z) (work : Z -> nat -> option M) (sched : list nat) (b : boot) : boot * option exn :=
  if bo_parallel b then
    let pos := (bo_pos b + bo_n b)%nat in
    match pool (bo_cpus b) with
    | Some e => (mkBoot (bo_n b) (bo_parallel b) (bo_cpus b) pos (bo_results b) (bo_tables b), Some e)
    | None =>
        let '(ok, d) := par_runs (fun i => work (rng (bo_pos b + i - 1)%nat) i) sched (bo_results b) in
        (mkBoot (bo_n b) (bo_parallel b) (bo_cpus b) pos d (if ok then true else bo_tables b),
         if ok then None else Some WorkError)
    end
  else
    let '(pos, d, e) := boot_seq rng work (bo_n b) 1 (bo_pos b) (bo_results b) in
    (mkBoot (bo_n b) (bo_parallel b) (bo_cpus b) pos d (match e with None => true | Some _ => bo_tables b end), e).
End Boot.
Arguments boot : clear implicits.

(** ** BS-DISP *)
Section BsDisp.
Context {M D : Type}.
Record bsdisp := mkBsd { bd_n : nat; bd_cores : Z; bd_boot : option (boot M); bd_disp : list (nat * D);
                         bd_compiled : bool; bd_drops : nat; bd_swaps : nat }.
(** lines 64-109 *)
Definition new_bsdisp (cpu : Z) (n : nat) (cores : Z) (b : option (boot M)) : bsdisp :=
  mkBsd (match b with None => n | Some b' => bo_n b' end) (bsdisp_cores cpu cores) b [] false 0 0.

(** lines 184-196: every displacement is made with its own default cores (parallel);
    [disp c m] is the displacement of the run's model with [c] processes. *)
Fixpoint disp_seq (cpu : Z) (disp : M -> option D) (l : list (nat * M)) (d : list (nat * D)) : list (nat * D) * option exn :=
  match l with
  | [] => (d, None)
  | (key, m) :: t =>
      match pool (disp_cores cpu (-1)) with
      | Some e => (d, Some e)
      | None => match disp m with
                | None => (d, Some WorkError)
                | Some x => disp_seq cpu disp t (dict_set d key x)
                end
      end
  end.
Fixpoint lookup {A} (d : list (nat * A)) (k : nat) : option A :=
  match d with [] => None | (k', v) :: t => if (k' =? k)%nat then Some v else lookup t k end.
(** lines 230-247: runs 1..len-1 by key, counting those in which Q dropped. *)
Fixpoint count_drops (drop : D -> bool) (d : list (nat * D)) (ks : list nat) (n : nat) : nat * option exn :=
  match ks with
  | [] => (n, None)
  | k :: t => match lookup d k with
              | None => (n, Some KeyError)
              | Some x => count_drops drop d t (if drop x then S n else n)
              end
  end.
(** lines 215-266 *)
Definition bsd_compile (drop swap : D -> bool) (s : bsdisp) : bsdisp * option exn :=
  match bd_disp s with
  | [] => (s, Some IndexError)
  | _ :: _ =>
      match count_drops drop (bd_disp s) (seq 1 (length (bd_disp s) - 1)) (bd_drops s) with
      | (n, Some e) => (mkBsd (bd_n s) (bd_cores s) (bd_boot s) (bd_disp s) (bd_compiled s) n (bd_swaps s), Some e)
      | (n, None) =>
          (mkBsd (bd_n s) (bd_cores s) (bd_boot s) (bd_disp s) true n
             (bd_swaps s + length (filter (fun p => swap (snd p)) (bd_disp s))),
           match bd_boot s with Some b => if bo_tables b then None else Some AttributeError | None => Some AttributeError end)
      end
  end.
(** lines 148-156: a bootstrap made here is parallel with its default processes, and
    is kept before it is run. *)
Definition ensure_boot (cpu : Z) (rng : nat -> Z) (work : Z -> nat -> option M) (sched : list nat) (s : bsdisp) : bsdisp * option exn :=
  match bd_boot s with
  | Some _ => (s, None)
  | None => let '(b, e) := boot_run rng work sched (new_boot cpu (bd_n s) true (-1)) in
            (mkBsd (bd_n s) (bd_cores s) (Some b) (bd_disp s) (bd_compiled s) (bd_drops s) (bd_swaps s), e)
  end.
(** lines 112-202.  In parallel mode every call of line 176 raises TypeError (one
    tuple for eight parameters), if there is any. *)
Definition bsd_run (cpu : Z) (rng : nat -> Z) (work : Z -> nat -> option M) (sched : list nat)
    (disp : M -> option D) (drop swap : D -> bool) (parallel : bool) (s : bsdisp) : bsdisp * option exn :=
  match ensure_boot cpu rng work sched s with
  | (s1, Some e) => (s1, Some e)
  | (s1, None) =>
      let res := match bd_boot s1 with Some b => bo_results b | None => [] end in
      if parallel then
        match pool (bsdisp_processes cpu) with
        | Some e => (s1, Some e)
        | None => match res with [] => bsd_compile drop swap s1 | _ :: _ => (s1, Some TypeError) end
        end
      else
        match disp_seq cpu disp res (bd_disp s1) with
        | (d, Some e) => (mkBsd (bd_n s1) (bd_cores s1) (bd_boot s1) d (bd_compiled s1) (bd_drops s1) (bd_swaps s1), Some e)
        | (d, None) => bsd_compile drop swap (mkBsd (bd_n s1) (bd_cores s1) (bd_boot s1) d (bd_compiled s1) (bd_drops s1) (bd_swaps s1))
        end
  end.
End BsDisp.
Arguments bsdisp : clear implicits.

(** ** Perturbation *)
Section Pert.
Context {B X : Type}.
Record pert := mkPert { pt_models : nat; pt_base : option B; pt_pos : nat; pt_results : option (list X) }.
(** lines 66-110 *)
Definition new_pert (models : nat) (base : option B) : pert := mkPert models base 0 None.
(** starmap (130): results in the order of the arguments, or the exception of one. *)
Fixpoint starmap (f : nat * Z -> option X) (l : list (nat * Z)) : option (list X) :=
  match l with
  | [] => Some []
  | a :: t => match f a, starmap f t with Some x, Some xs => Some (x :: xs) | _, _ => None end
  end.
(** lines 112-138; [train]: the base model of lines 117-119, [work base i seed]: lines
    140-145. *)
Definition pert_run (cpu : Z) (rng : nat -> Z) (train : option B) (work : B -> nat -> Z -> option X) (p : pert) : pert * option exn :=
  match (match pt_base p with Some b => Some b | None => train end) with
  | None => (p, Some WorkError)
  | Some b =>
      match pool (perturb_processes cpu) with
      | Some e => (mkPert (pt_models p) (Some b) (pt_pos p) (pt_results p), Some e)
      | None =>
          let args := map (fun i => (i, rng (pt_pos p + i)%nat)) (seq 0 (pt_models p)) in
          let pos := (pt_pos p + pt_models p)%nat in
          match starmap (fun a => work b (fst a) (snd a)) args with
          | None => (mkPert (pt_models p) (Some b) pos (pt_results p), Some WorkError)
          | Some xs => (mkPert (pt_models p) (Some b) pos (Some xs), None)
          end
      end
  end.
End Pert.
Arguments pert : clear implicits.
