From mathcomp Require Import all_ssreflect all_algebra.
From Verif Require Import Inverse_Model.
Import GRing.Theory.
Local Open Scope ring_scope.

Section P.
  Variable F : fieldType.
  Implicit Types A : nat -> nat -> F.

  (** The mathcomp matrix with the same entries. *)
  Definition mx n A : 'M[F]_n := \matrix_(i, j) A i j.

  Lemma minor_mx n A (i j : 'I_n.+1) :
    mx n (extract_minor F A i j) = row' i (col' j (mx n.+1 A)).
  Proof.
    apply/matrixP => a b. rewrite !mxE /extract_minor /=.
    by rewrite /bump [(i <= a)%N]leqNgt [(j <= b)%N]leqNgt; case: (a < i)%N; case: (b < j)%N.
  Qed.

  Lemma foldl_some (n : nat) (g : nat -> option F) (f : nat -> F) (c : nat -> F) :
    (forall i, (i < n)%N -> g i = Some (f i)) ->
    forall x s, (forall i, i \in s -> (i < n)%N) ->
    foldl (fun acc i => match acc, g i with
                        | Some d, Some dm => Some (d + c i * dm)
                        | _, _ => None end) (Some x) s
    = Some (x + \sum_(i <- s) c i * f i).
  Proof.
    move=> Hg x s; elim: s x => [|i s IH] x Hs /=.
      by rewrite big_nil addr0.
    rewrite Hg; last by apply: Hs; rewrite inE eqxx.
    rewrite IH; last by move=> k Hk; apply: Hs; rewrite inE Hk orbT.
    by rewrite big_cons addrA.
  Qed.

  Lemma det_unfold strict n A :
    calculate_determinant F strict n.+2 A =
    foldl (fun acc i => match acc, (fun i => calculate_determinant F strict n.+1 (extract_minor F A 0 i)) i with
                        | Some d, Some dm => Some (d + (A 0%N i * (-1) ^+ i) * dm)
                        | _, _ => None end) (Some 0) (iota 0 n.+2).
  Proof. by []. Qed.

  Lemma det_correct n : forall A, calculate_determinant F false n.+1 A = Some (\det (mx n.+1 A)).
  Proof.
    elim: n => [|n IH] A.
      by rewrite /= det_mx11 mxE.
    rewrite det_unfold. set g := fun i => calculate_determinant F false n.+1 (extract_minor F A 0 i).
    rewrite (foldl_some n.+2 g (fun i => \det (mx n.+1 (extract_minor F A 0 i)))); first last.
    - by move=> i; rewrite mem_iota.
    - by move=> i _; rewrite /g IH.
    rewrite add0r (expand_det_row _ ord0) -[iota _ _]/(index_iota 0 n.+2) big_mkord.
    congr Some. apply: eq_bigr => j _. rewrite mxE /cofactor -minor_mx /= add0n.
    by rewrite mulrA.
  Qed.

  Lemma cofactor_correct n A (i j : 'I_n.+2) :
    cofactor_entry F false n.+2 A i j = Some (cofactor (mx n.+2 A) i j).
  Proof. by rewrite /cofactor_entry det_correct /= /cofactor -minor_mx. Qed.

  Lemma adjoint_correct n A :
    exists adj, calculate_adjoint F false n.+2 A = Some adj /\
      forall i j : 'I_n.+2, adj i j = (\adj (mx n.+2 A)) i j.
  Proof.
    have Hall : all (fun i => all (fun j => cofactor_entry F false n.+2 A i j) (iota 0 n.+2)) (iota 0 n.+2).
      apply/allP => i; rewrite mem_iota add0n => /andP[_ Hi].
      apply/allP => j; rewrite mem_iota add0n => /andP[_ Hj].
      by rewrite (cofactor_correct n A (Ordinal Hi) (Ordinal Hj)).
    exists (fun r c => odflt 0 (cofactor_entry F false n.+2 A c r)); split.
      by rewrite /calculate_adjoint Hall.
    by move=> i j; rewrite cofactor_correct mxE.
  Qed.

  (** Statement of "two-sided inverse" without mathcomp matrices. *)
  Definition is_inverse (n : nat) (A B : nat -> nat -> F) : Prop :=
    forall i j, (i < n)%N -> (j < n)%N ->
      \sum_(0 <= p < n) A i p * B p j = (i == j)%:R /\
      \sum_(0 <= p < n) B i p * A p j = (i == j)%:R.

  Lemma inverse_correct n A B :
    (2 <= n)%N -> calculate_inverse F false n A = Some B -> is_inverse n A B.
  Proof.
    case: n => [|[|n]] // _. rewrite /calculate_inverse det_correct /=.
    case: ifP => // Hd. have [adj [-> Hadj]] := adjoint_correct n A. move=> [<-].
    have Hu : mx n.+2 A \in unitmx by rewrite unitmxE unitfE.
    have HB : mx n.+2 (fun i j => adj i j / \det (mx n.+2 A)) = invmx (mx n.+2 A).
      apply/matrixP => i j. by rewrite /invmx Hu !mxE Hadj mulrC mxE.
    move=> i j Hi Hj. split; rewrite big_mkord.
    - have /matrixP /(_ (Ordinal Hi) (Ordinal Hj)) := mulmxV Hu.
      rewrite -HB !mxE => <-. by apply: eq_bigr => p _; rewrite !mxE.
    - have /matrixP /(_ (Ordinal Hi) (Ordinal Hj)) := mulVmx Hu.
      rewrite -HB !mxE => <-. by apply: eq_bigr => p _; rewrite !mxE.
  Qed.

  (** The inverse is produced whenever one exists. *)
  Lemma inverse_complete n A C :
    (2 <= n)%N -> is_inverse n A C -> exists B, calculate_inverse F false n A = Some B.
  Proof.
    case: n => [|[|n]] // _ HC.
    have Hd : \det (mx n.+2 A) != 0.
      have E : mx n.+2 A *m mx n.+2 C = 1%:M.
        apply/matrixP => i j. rewrite !mxE.
        have [<- _] := HC i j (ltn_ord i) (ltn_ord j).
        rewrite big_mkord. by apply: eq_bigr => p _; rewrite !mxE.
      apply/eqP => H0. have : \det (mx n.+2 A *m mx n.+2 C) = 0 by rewrite det_mulmx H0 mul0r.
      by rewrite E det1 => /eqP; rewrite oner_eq0.
    rewrite /calculate_inverse det_correct /= Hd.
    have [adj [-> _]] := adjoint_correct n A. by eexists.
  Qed.

  Lemma foldl_none (g : nat -> option F) (c : nat -> F) x a s :
    (forall i, g i = None) ->
    foldl (fun acc i => match acc, g i with
                        | Some d, Some dm => Some (d + c i * dm)
                        | _, _ => None end) (Some x) (a :: s) = None.
  Proof. move=> Hg /=. rewrite Hg. by elim: s. Qed.

  Lemma strict_det_none n : forall A, calculate_determinant F true n.+1 A = None.
  Proof.
    elim: n => [|n IH] A //. rewrite det_unfold. apply: foldl_none => i. exact: IH.
  Qed.

  Lemma strict_always_error n A : calculate_inverse F true n A = None.
  Proof.
    case: n => [|n]; last by rewrite /calculate_inverse strict_det_none.
    by [].
  Qed.

  (** One factor: the 1x1 inverse is 0. *)
  Lemma inverse_1x1 A : A 0%N 0%N != 0 ->
    exists B, calculate_inverse F false 1 A = Some B /\ B 0%N 0%N = 0.
  Proof.
    move=> H0. rewrite /calculate_inverse /= H0 /=. eexists; split; first by [].
    by rewrite /= mulr0 mul0r.
  Qed.
End P.
