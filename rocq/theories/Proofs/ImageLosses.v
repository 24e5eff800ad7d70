From Coq Require Import Bool Arith List QArith Qabs Lia Lqa Sorting.Permutation.
From Verif Require Import Model.Prelude Model.MultiValue Model.Planning Model.ImageLosses Spec.ImageLosses Proofs.MultiValue Proofs.Planning.
Import ListNotations.
Open Scope nat_scope.
Open Scope list_scope.

Lemma sum_qsum l : qsum l = sum l.
Proof. reflexivity. Qed.
Lemma shape_eqb_ok a : forall b, shape_eqb a b = true <-> a = b.
Proof.
  induction a as [|x a IH]; intros [|y b]; cbn; split; intros H; try discriminate; try reflexivity.
  - apply andb_true_iff in H. destruct H as [E H]. apply Nat.eqb_eq in E. apply IH in H. congruence.
  - injection H as -> ->. rewrite Nat.eqb_refl. now apply IH.
Qed.
Lemma fits_values x c a b : i_shape x = [a; b; c] -> fits x -> length (values x) = a * b * c.
Proof.
  intros E (a' & b' & c' & E' & L & F). rewrite E in E'. injection E' as <- <- <-. unfold values. rewrite <- L.
  clear -F. induction F as [|p l H F IH]; [reflexivity|]. cbn [concat length]. rewrite app_length, IH, H. lia.
Qed.
Lemma same_length x r : fits x -> fits r -> i_shape x = i_shape r -> length (values x) = length (values r) /\ length (i_pixels x) = length (i_pixels r).
Proof.
  intros Fx Fr E. pose proof Fx as (a & b & c & Ex & L & _). pose proof Fr as (a' & b' & c' & Er & L' & _).
  rewrite E, Er in Ex. injection Ex as -> -> ->. split; [|congruence].
  rewrite (fits_values x c a b), (fits_values r c a b); congruence || assumption.
Qed.
Lemma abs_eq x : (qabs x == Qabs x)%Q.
Proof. unfold qabs. destruct (qmax_case x (- x)) as [[-> H]|[-> H]]; apply Qabs_case; intros; lra. Qed.
Lemma sum_map_eq {A} (f g : A -> Q) l : (forall a, f a == g a)%Q -> (sum (map f l) == sum (map g l))%Q.
Proof. intros H. induction l as [|a l IH]; cbn; [reflexivity|]. rewrite IH, H. reflexivity. Qed.
Lemma sum_nonneg {A} (f : A -> Q) l : (forall a, 0 <= f a)%Q -> (0 <= sum (map f l))%Q.
Proof. intros H. induction l as [|a l IH]; cbn; [lra|]. specialize (H a). lra. Qed.
Lemma sum_zero (f : Q -> Q -> Q) : (forall a b, 0 <= f a b)%Q -> (forall a b, f a b == 0 <-> a == b)%Q ->
  forall x r, length x = length r -> (dist_with f x r == 0 <-> Forall2 Qeq x r)%Q.
Proof.
  intros N Z. unfold dist_with. induction x as [|a x IH]; intros [|b r] L; try discriminate; cbn; [split; [constructor|reflexivity]|].
  injection L as L. specialize (IH r L). pose proof (sum_nonneg (fun ab => f (fst ab) (snd ab)) (combine x r) (fun ab => N _ _)) as P.
  pose proof (N a b) as Nab. split.
  - intros H. constructor; [apply Z; lra|]. apply IH. lra.
  - intros H. inversion H; subst. apply IH in H5. apply Z in H3. lra.
Qed.
Lemma sum_perm l l' : Permutation l l' -> (sum l == sum l')%Q.
Proof. induction 1; cbn; lra. Qed.
Lemma insert_perm q l : Permutation (insert q l) (q :: l).
Proof. induction l as [|p l IH]; cbn; [reflexivity|]. destruct (qle q p); [reflexivity|]. rewrite IH. apply perm_swap. Qed.
Lemma sort_perm l : Permutation (sort l) l.
Proof. induction l as [|q l IH]; cbn; [reflexivity|]. rewrite insert_perm. now constructor. Qed.
Lemma sum_differences x : forall r, length x = length r -> (qsum (differences x r) == sum x - sum r)%Q.
Proof.
  induction x as [|a x IH]; intros [|b r] L; try discriminate; [reflexivity|]. injection L as L. specialize (IH r L).
  change (qsum (differences (a :: x) (b :: r))) with ((a - b) + qsum (differences x r))%Q. cbn [sum]. lra.
Qed.
Lemma sum_pixels l : (sum (map sum l) == sum (concat l))%Q.
Proof.
  induction l as [|p l IH]; [reflexivity|]. cbn [map concat sum]. rewrite IH. clear IH. induction p as [|a p IH]; cbn; [lra|]. lra.
Qed.
Lemma fold_min_ge l : forall q r, (r <= fold_left qmin l q <-> Forall (fun p => r <= p) (q :: l))%Q.
Proof.
  induction l as [|a l IH]; intros q r; cbn [fold_left]; [split; [now repeat constructor|intros H; now inversion H]|]. rewrite IH.
  pose proof (qmin_le_l q a). pose proof (qmin_le_r q a). split; intros F; inversion F; subst.
  - constructor; [lra|]. constructor; [lra|assumption].
  - inversion H4; subst. constructor; [|assumption]. destruct (qmin_or q a) as [->| ->]; assumption.
Qed.
Lemma fold_max_le l : forall q r, (fold_left qmax l q <= r <-> Forall (fun p => p <= r) (q :: l))%Q.
Proof.
  induction l as [|a l IH]; intros q r; cbn [fold_left]; [split; [now repeat constructor|intros H; now inversion H]|]. rewrite IH.
  pose proof (qmax_ge_l q a). pose proof (qmax_ge_r q a). split; intros F; inversion F; subst.
  - constructor; [lra|]. constructor; [lra|assumption].
  - inversion H4; subst. constructor; [|assumption]. destruct (qmax_case q a) as [[-> _]|[-> _]]; assumption.
Qed.
