(** Lemmas for C94. *)
From Coq Require Import Arith ZArith QArith Qround Bool Lia Lqa Permutation List.
From Verif.Model Require Import Prelude MultiValue Nsga2 Mutation WinRates.
From Verif.Spec Require Import WinRates.
From Verif.Proofs Require Import MultiValue Artificial.
Import ListNotations.
Open Scope nat_scope.

Lemma sumQ_cons x l : sumQ (x :: l) = (x + sumQ l)%Q.
Proof. reflexivity. Qed.
Lemma sumQ_nil : sumQ [] = 0%Q.
Proof. reflexivity. Qed.
Lemma sumQ_app a b : (sumQ (a ++ b) == sumQ a + sumQ b)%Q.
Proof. induction a as [|x a IH]; cbn [app]; [rewrite sumQ_nil; lra|]. rewrite !sumQ_cons, IH. lra. Qed.
Lemma sumQ_perm a b : Permutation a b -> (sumQ a == sumQ b)%Q.
Proof. induction 1; rewrite ?sumQ_cons; lra. Qed.
Lemma sumQ_ext {A} (f g : A -> Q) l : (forall x, In x l -> (f x == g x)%Q) -> (sumQ (map f l) == sumQ (map g l))%Q.
Proof. induction l as [|x l IH]; intros H; cbn [map]; [lra|]. rewrite !sumQ_cons, H by now left. rewrite IH; [lra|]. intros; apply H; now right. Qed.
Lemma sumQ_flat {A} (f : A -> list Q) l : (sumQ (flat_map f l) == sumQ (map (fun x => sumQ (f x)) l))%Q.
Proof. induction l as [|x l IH]; cbn [flat_map map]; [lra|]. rewrite sumQ_cons, sumQ_app, IH. lra. Qed.
Lemma sumQ_le {A} (f g : A -> Q) l : (forall x, In x l -> (f x <= g x)%Q) -> (sumQ (map f l) <= sumQ (map g l))%Q.
Proof.
  induction l as [|x l IH]; intros H; cbn [map]; [lra|]. rewrite !sumQ_cons. specialize (H x (or_introl eq_refl)) as H1.
  assert (sumQ (map f l) <= sumQ (map g l))%Q by (apply IH; intros; apply H; now right). lra.
Qed.
Lemma sumQ_plus {A} (f g : A -> Q) l : (sumQ (map (fun x => f x + g x)%Q l) == sumQ (map f l) + sumQ (map g l))%Q.
Proof. induction l as [|x l IH]; cbn [map]; rewrite ?sumQ_nil, ?sumQ_cons; [lra|]. rewrite IH. lra. Qed.

(** the matrix of one case *)
Lemma finite_infinite l : match finite l with Some m => infinite l = false /\ sumQ m = total_of l /\ length m = length l | None => infinite l = true end.
Proof.
  induction l as [|[x|] l IH]; [repeat split| |reflexivity]. cbn [finite]. destruct (finite l) as [m|]; [|exact IH]. destruct IH as (A & B & C).
  split; [exact A|]. split; [|cbn; now rewrite C]. rewrite sumQ_cons, B. reflexivity.
Qed.
Lemma qnat_pos n : (0 < qnat (S n))%Q.
Proof. unfold qnat, Qlt. cbn. lia. Qed.
Lemma div_compare x y n m : (x / qnat (S n) - y / qnat (S m) ?= 0)%Q = (x * qnat (S m) ?= y * qnat (S n))%Q.
Proof.
  pose proof (qnat_pos n) as P. pose proof (qnat_pos m) as P'. set (a := qnat (S n)) in *. set (b := qnat (S m)) in *.
  assert (E : ((x / a - y / b) * (a * b) == x * b - y * a)%Q) by (field; lra).
  assert (E0 : (0 * (a * b) == 0)%Q) by lra.
  destruct (x * b ?= y * a)%Q eqn:C.
  - apply Qeq_alt in C. apply Qeq_alt. assert (K : ((x / a - y / b) * (a * b) == 0)%Q) by lra. apply Qmult_integral in K. destruct K as [K|K]; [exact K|].
    exfalso. assert (0 < a * b)%Q by (now apply Qmult_lt_0_compat). lra.
  - apply Qlt_alt in C. apply Qlt_alt. apply Qnot_le_lt. intros K. assert (0 <= (x / a - y / b) * (a * b))%Q.
    { apply Qmult_le_0_compat; [exact K|]. apply Qlt_le_weak. now apply Qmult_lt_0_compat. } lra.
  - apply Qgt_alt in C. apply Qgt_alt. apply Qnot_le_lt. intros K. assert (0 <= (0 - (x / a - y / b)) * (a * b))%Q.
    { apply Qmult_le_0_compat; [lra|]. apply Qlt_le_weak. now apply Qmult_lt_0_compat. } lra.
Qed.
Lemma duel_points a b :
  duel (match a with [] => None | l => Some (match finite l with Some m => Some (sumQ m / qnat (length m))%Q | None => None end) end)
       (match b with [] => None | l => Some (match finite l with Some m => Some (sumQ m / qnat (length m))%Q | None => None end) end) = points a b.
Proof.
  destruct a as [|x a]; [destruct b; reflexivity|]. destruct b as [|y b]; [cbn -[finite]; now destruct (finite (x :: a))|].
  pose proof (finite_infinite (x :: a)) as A. pose proof (finite_infinite (y :: b)) as B. unfold points.
  destruct (finite (x :: a)) as [m|]; [|rewrite A; reflexivity]. destruct A as (-> & <- & La).
  destruct (finite (y :: b)) as [m'|]; [|rewrite B; reflexivity]. destruct B as (-> & <- & Lb).
  rewrite La, Lb. cbn [length duel]. unfold qlt. pose proof (div_compare (sumQ m) (sumQ m') (length a) (length b)) as D.
  destruct (sumQ m * qnat (S (length b)) ?= sumQ m' * qnat (S (length a)))%Q eqn:C; set (z := (sumQ m / _ - sumQ m' / _)%Q) in *.
  - apply Qeq_alt in D. replace (negb (Qle_bool 0 z)) with false by (symmetry; apply negb_false_iff, Qle_bool_iff; lra).
    now replace (Qeq_bool z 0) with true by (symmetry; now apply Qeq_bool_iff).
  - apply Qlt_alt in D. replace (negb (Qle_bool 0 z)) with true; [reflexivity|]. symmetry. apply negb_true_iff, not_true_iff_false. intros K.
    apply Qle_bool_iff in K. lra.
  - apply Qgt_alt in D. replace (negb (Qle_bool 0 z)) with false by (symmetry; apply negb_false_iff, Qle_bool_iff; lra).
    replace (Qeq_bool z 0) with false; [reflexivity|]. symmetry. apply not_true_iff_false. intros K. apply Qeq_bool_iff in K. lra.
Qed.

(** all cases *)
Definition case_of (categories : list nat) (t : list Z) (df : list run) : list run := filter (fun r => if list_eq_dec Z.eq_dec (case categories r) t then true else false) df.
Lemma losses_of_case df categories t i : losses_of df categories t i = map loss (filter (fun r => who r =? i) (case_of categories t df)).
Proof.
  unfold losses_of, case_of. f_equal. induction df as [|r df IH]; [reflexivity|]. cbn.
  destruct (list_eq_dec Z.eq_dec (case categories r) t); cbn; [|exact IH]. destruct (who r =? i); [f_equal|]; exact IH.
Qed.
Lemma duel_mean df i j : duel (mean df i) (mean df j) = points (map loss (filter (fun r => who r =? i) df)) (map loss (filter (fun r => who r =? j) df)).
Proof. unfold mean. rewrite <- duel_points. destruct (map loss (filter (fun r => who r =? i) df)), (map loss (filter (fun r => who r =? j) df)); reflexivity. Qed.
Definition case_list (df : list run) categories : list (list Z) := nodup (list_eq_dec Z.eq_dec) (map (case categories) df).
Lemma case_list_cases df categories : cases df categories (case_list df categories).
Proof. split; [apply NoDup_nodup|]. intros t. unfold case_list. rewrite nodup_In, in_map_iff. split; intros (r & A & B); eauto. Qed.
Lemma cases_perm df categories l l' : cases df categories l -> cases df categories l' -> Permutation l l'.
Proof. intros (A & B) (C & D). apply NoDup_Permutation; auto. intros t. rewrite B, D. reflexivity. Qed.
Lemma score_perm df categories l l' i j : Permutation l l' -> (score df categories l i j == score df categories l' i j)%Q.
Proof. intros P. unfold score. apply sumQ_perm, Permutation_map, P. Qed.
Lemma filter_filter {A} (f g : A -> bool) l : filter f (filter g l) = filter (fun x => g x && f x) l.
Proof. induction l as [|x l IH]; [reflexivity|]. cbn. destruct (g x); cbn; [destruct (f x); now rewrite IH|exact IH]. Qed.
Lemma case_of_cons c categories v t df : case_of (c :: categories) (v :: t) df = case_of categories t (filter (fun r => Z.eqb (col r c) v) df).
Proof.
  unfold case_of. rewrite filter_filter. apply filter_ext. intros r. cbn [case map].
  destruct (list_eq_dec Z.eq_dec (col r c :: map (col r) categories) (v :: t)) as [E|E].
  - injection E as E1 E2. rewrite E1, Z.eqb_refl. unfold case. destruct (list_eq_dec _ _ _); [reflexivity|contradiction].
  - destruct (Z.eqb_spec (col r c) v) as [E1|E1]; [|reflexivity]. unfold case. destruct (list_eq_dec _ _ _) as [E2|E2]; [|reflexivity].
    exfalso. apply E. now rewrite E1, E2.
Qed.
Lemma case_list_cons df c categories : Permutation (case_list df (c :: categories))
  (flat_map (fun v => map (cons v) (case_list (filter (fun r => Z.eqb (col r c) v) df) categories)) (nodup Z.eq_dec (map (fun r => col r c) df))).
Proof.
  apply NoDup_Permutation.
  - apply NoDup_nodup.
  - set (vals := nodup Z.eq_dec (map (fun r => col r c) df)). assert (N : NoDup vals) by apply NoDup_nodup. clearbody vals.
    induction vals as [|v vals IH]; [constructor|]. cbn [flat_map]. inversion N as [|? ? N1 N2]; subst.
    assert (A : NoDup (map (cons v) (case_list (filter (fun r => Z.eqb (col r c) v) df) categories))).
    { apply FinFun.Injective_map_NoDup; [intros x y; congruence|apply NoDup_nodup]. }
    revert A. generalize (case_list (filter (fun r => Z.eqb (col r c) v) df) categories). intros l A.
    assert (Dj : forall t, In t (map (cons v) l) -> ~ In t (flat_map (fun v => map (cons v) (case_list (filter (fun r => Z.eqb (col r c) v) df) categories)) vals)).
    { intros t Ht Ht'. apply in_map_iff in Ht. destruct Ht as (t' & <- & _). apply in_flat_map in Ht'. destruct Ht' as (w & Hw & Hw').
      apply in_map_iff in Hw'. destruct Hw' as (t2 & [= <- _] & _). contradiction. }
    induction (map (cons v) l) as [|t ts IHt]; [now apply IH|]. cbn. inversion A; subst. constructor.
    + intros K. apply in_app_or in K. destruct K as [K|K]; [contradiction|]. apply (Dj t); [now left|exact K].
    + apply IHt; auto. intros u Hu. apply Dj. now right.
  - intros t. unfold case_list at 1. rewrite nodup_In, in_map_iff, in_flat_map. split.
    + intros (r & <- & Hr). exists (col r c). split; [apply nodup_In, in_map_iff; eauto|]. change (case (c :: categories) r) with (col r c :: case categories r). apply in_map.
      apply nodup_In, in_map. apply filter_In. split; [exact Hr|apply Z.eqb_refl].
    + intros (v & _ & Ht). apply in_map_iff in Ht. destruct Ht as (t' & <- & Ht). apply nodup_In, in_map_iff in Ht. destruct Ht as (r & <- & Hr).
      apply filter_In in Hr. destruct Hr as (Hr & E). apply Z.eqb_eq in E. exists r. split; [|exact Hr]. cbn. now rewrite E.
Qed.
Definition known (df : list run) (all : list nat) : Prop := forall r, In r df -> In (who r) all.
Lemma winners_known df all : known df all -> winners df all = Ok (fun i j => duel (mean df i) (mean df j)).
Proof.
  intros K. unfold winners. replace (forallb _ df) with true; [reflexivity|]. symmetry. apply forallb_forall. intros r Hr. apply existsb_exists.
  exists (who r). split; [now apply K|apply Nat.eqb_refl].
Qed.
Lemma filter_all {A} (f : A -> bool) l : (forall x, In x l -> f x = true) -> filter f l = l.
Proof. induction l as [|x l IH]; intros H; [reflexivity|]. cbn. rewrite H by now left. f_equal. apply IH. intros; apply H; now right. Qed.
Lemma list_sum_map {A B} (f : B -> nat) (g : A -> nat) la lb : Forall2 (fun a b => f b = g a) la lb -> list_sum (map f lb) = list_sum (map g la).
Proof. induction 1; cbn; auto. Qed.
Lemma aggregate_score all categories : forall df, df <> [] -> known df all ->
  exists m, aggregate df categories all = Ok (m, length (case_list df categories)) /\ forall i j, (m i j == score df categories (case_list df categories) i j)%Q.
Proof.
  induction categories as [|c categories IH]; intros df N K.
  - cbn [aggregate]. rewrite (winners_known _ _ K). cbn [bind].
    assert (E : case_list df [] = [[]]).
    { unfold case_list. destruct df as [|r df]; [easy|]. clear. assert (H : forall l : list run, nodup (list_eq_dec Z.eq_dec) (map (case []) l) = [] \/ nodup (list_eq_dec Z.eq_dec) (map (case []) l) = [[]]).
      { induction l as [|x l [IH|IH]]; [now left| |]; right; cbn -[list_eq_dec]; rewrite IH; destruct (in_dec _ _ _) as [I|I]; auto.
        - exfalso. apply (nodup_In (list_eq_dec Z.eq_dec)) in I. now rewrite IH in I.
        - exfalso. apply I. apply (nodup_In (list_eq_dec Z.eq_dec)). rewrite IH. now left. }
      destruct (H (r :: df)) as [H1|H1]; [|exact H1]. exfalso. assert (I : In [] (nodup (list_eq_dec Z.eq_dec) (map (case []) (r :: df)))) by (apply nodup_In; now left). now rewrite H1 in I. }
    rewrite E. exists (fun i j => duel (mean df i) (mean df j)). split; [reflexivity|]. intros i j. unfold score. cbn [map]. rewrite sumQ_cons, sumQ_nil, duel_mean, !losses_of_case.
    replace (case_of [] [] df) with df; [lra|]. symmetry. unfold case_of. apply filter_all. intros r _. cbn. reflexivity.
  - set (vals := nodup Z.eq_dec (map (fun r => col r c) df)).
    assert (Part : forall v, In v vals -> exists m, aggregate (filter (fun r => Z.eqb (col r c) v) df) categories all =
                Ok (m, length (case_list (filter (fun r => Z.eqb (col r c) v) df) categories)) /\
                forall i j, (m i j == score (filter (fun r => Z.eqb (col r c) v) df) categories (case_list (filter (fun r => Z.eqb (col r c) v) df) categories) i j)%Q).
    { intros v Hv. apply IH.
      - apply nodup_In, in_map_iff in Hv. destruct Hv as (r & E & Hr). intros E0. assert (I : In r (filter (fun r => Z.eqb (col r c) v) df)) by (apply filter_In; split; [exact Hr|now apply Z.eqb_eq]). now rewrite E0 in I.
      - intros r Hr. apply filter_In in Hr. now apply K. }
    assert (Sc : forall i j, (score df (c :: categories) (case_list df (c :: categories)) i j ==
       sumQ (map (fun v => score (filter (fun r => Z.eqb (col r c) v) df) categories (case_list (filter (fun r => Z.eqb (col r c) v) df) categories) i j) vals))%Q).
    { intros i j. rewrite (score_perm _ _ _ _ i j (case_list_cons df c categories)). unfold score. fold vals.
      rewrite flat_map_concat_map, concat_map, map_map, <- flat_map_concat_map, sumQ_flat. apply sumQ_ext. intros v _. rewrite map_map. apply sumQ_ext. intros t _.
      now rewrite !losses_of_case, case_of_cons. }
    assert (Ln : length (case_list df (c :: categories)) = list_sum (map (fun v => length (case_list (filter (fun r => Z.eqb (col r c) v) df) categories)) vals)).
    { rewrite (Permutation_length (case_list_cons df c categories)). fold vals. clear. induction vals as [|v vals IH]; [reflexivity|]. cbn. now rewrite app_length, map_length, IH. }
    cbn [aggregate]. fold vals.
    assert (General : exists m, bind (map_result (fun v => aggregate (filter (fun r => Z.eqb (col r c) v) df) categories all) vals)
                  (fun l => Ok (fun i j => sumQ (map (fun mn => fst mn i j) l), list_sum (map snd l))) = Ok (m, length (case_list df (c :: categories))) /\
                forall i j, (m i j == score df (c :: categories) (case_list df (c :: categories)) i j)%Q).
    { destruct (map_result_spec (fun v => aggregate (filter (fun r => Z.eqb (col r c) v) df) categories all)
        (fun v mn => snd mn = length (case_list (filter (fun r => Z.eqb (col r c) v) df) categories) /\
           forall i j, (fst mn i j == score (filter (fun r => Z.eqb (col r c) v) df) categories (case_list (filter (fun r => Z.eqb (col r c) v) df) categories) i j)%Q) vals) as (l & E & F2).
      { intros v Hv. destruct (Part v Hv) as (m & -> & H). exists (m, length (case_list (filter (fun r => Z.eqb (col r c) v) df) categories)). auto. }
      rewrite E. cbn [bind]. exists (fun i j => sumQ (map (fun mn => fst mn i j) l)). split.
      - do 2 f_equal. rewrite Ln. apply list_sum_map. clear -F2. induction F2 as [|? ? ? ? (H & _)]; constructor; auto.
      - intros i j. rewrite Sc. clear -F2. induction F2 as [|v mn vals l (_ & H) F2 IH]; [cbn; lra|]. cbn [map]. now rewrite !sumQ_cons, H, IH. }
    destruct vals as [|v [|v' vals']] eqn:Ev; [|clear General|exact General].
    + exfalso. destruct df as [|r df]; [easy|]. assert (I : In (col r c) vals) by (apply nodup_In; now left). subst vals. now rewrite Ev in I.
    + destruct (Part v) as (m & E & H); [now left|].
      assert (Ef : filter (fun r => Z.eqb (col r c) v) df = df).
      { apply filter_all. intros r Hr. apply Z.eqb_eq. assert (I : In (col r c) vals) by (apply nodup_In; exact (in_map (fun r => col r c) df r Hr)).
        subst vals. rewrite Ev in I. destruct I as [I|[]]. now symmetry. }
      rewrite Ef in *. exists m. split.
      * rewrite E, Ln. cbn [map list_sum fold_right]. now rewrite Ef, Nat.add_0_r.
      * intros i j. rewrite Sc. cbn [map]. rewrite sumQ_cons, sumQ_nil, Ef, H. lra.
Qed.

(** points of a duel *)
Lemma points_range a b : (0 <= points a b <= 1)%Q.
Proof.
  unfold points. destruct a as [|x a]; [lra|]. destruct b as [|y b]; [lra|]. destruct (infinite (x :: a)); [lra|]. destruct (infinite (y :: b)); [lra|].
  destruct (_ ?= _)%Q; split; try lra.
Qed.
Lemma points_sum a b : infinite a = false -> infinite b = false -> (points a b + points b a == match a, b with [], _ | _, [] => 0 | _, _ => 1 end)%Q.
Proof.
  intros Ia Ib. unfold points. destruct a as [|x a]; [destruct b; lra|]. destruct b as [|y b]; [lra|]. rewrite Ia, Ib. rewrite <- (Qcompare_antisym (total_of (x :: a) * _)).
  destruct (_ ?= _)%Q; cbn [CompOpp]; lra.
Qed.
Lemma points_self a : infinite a = false -> (points a a == match a with [] => 0 | _ => 1 # 2 end)%Q.
Proof. intros I. pose proof (points_sum a a I I) as H. destruct a; lra. Qed.
Lemma losses_finite df categories t i : all_finite df -> infinite (losses_of df categories t i) = false.
Proof.
  intros F. unfold infinite. apply not_true_iff_false. intros K. apply existsb_exists in K. destruct K as (o & Ho & E). unfold losses_of in Ho.
  apply in_map_iff in Ho. destruct Ho as (r & <- & Hr). apply filter_In in Hr. destruct (loss r) eqn:El; [discriminate|]. now apply (F r).
Qed.
Definition one_if (b : bool) : Q := if b then 1%Q else 0%Q.
Lemma sum_ones {A} (f : A -> bool) l : (sumQ (map (fun x => one_if (f x)) l) == qnat (length (filter f l)))%Q.
Proof.
  induction l as [|x l IH]; [reflexivity|]. cbn [map filter]. rewrite sumQ_cons, IH. destruct (f x); cbn [one_if length].
  - unfold qnat. rewrite Nat2Z.inj_succ. unfold Z.succ. rewrite inject_Z_plus. change (inject_Z 1) with 1%Q. lra.
  - lra.
Qed.
Definition playing df categories t i : bool := match losses_of df categories t i with [] => false | _ => true end.
Lemma playing_iff df categories t i : playing df categories t i = true <-> plays df categories t i.
Proof. unfold playing, plays. destruct (losses_of df categories t i); split; congruence. Qed.
Definition shared df categories l i j : nat := length (filter (fun t => playing df categories t i && playing df categories t j) l).
Lemma qnat_le a b : (qnat a <= qnat b)%Q <-> a <= b.
Proof. unfold qnat. rewrite <- Zle_Qle. lia. Qed.
Lemma score_sum df categories l i j : all_finite df -> (score df categories l i j + score df categories l j i == qnat (shared df categories l i j))%Q.
Proof.
  intros F. unfold score, shared. rewrite <- sumQ_plus, <- sum_ones. apply sumQ_ext. intros t _.
  rewrite points_sum by now apply losses_finite. unfold playing. destruct (losses_of df categories t i), (losses_of df categories t j); reflexivity.
Qed.
Lemma score_nonneg df categories l i j : (0 <= score df categories l i j)%Q.
Proof.
  unfold score. induction l as [|t l IH]; [cbn; lra|]. cbn [map]. rewrite sumQ_cons.
  pose proof (points_range (losses_of df categories t i) (losses_of df categories t j)). lra.
Qed.
Lemma shared_self df categories l i : shared df categories l i i = games df categories l i.
Proof. unfold shared, games. f_equal. apply filter_ext. intros t. apply andb_diag. Qed.
Lemma filter_le {A} (f g : A -> bool) l : (forall x, In x l -> f x = true -> g x = true) -> length (filter f l) <= length (filter g l).
Proof.
  induction l as [|x l IH]; intros H; [reflexivity|]. cbn. assert (IH' : length (filter f l) <= length (filter g l)) by (apply IH; intros; apply H; auto; now right).
  specialize (H x (or_introl eq_refl)). destruct (f x); [rewrite H by reflexivity; cbn; lia|]. destruct (g x); cbn; lia.
Qed.
Lemma shared_le df categories l i j : shared df categories l i j <= games df categories l j.
Proof. apply filter_le. intros t _ H. now apply andb_true_iff in H. Qed.
Lemma score_self df categories l i : all_finite df -> (2 * score df categories l i i == qnat (games df categories l i))%Q.
Proof. intros F. rewrite <- shared_self, <- score_sum by assumption. lra. Qed.
Lemma maxQ_spec l m : (forall x, In x l -> (x <= m)%Q) -> (exists x, In x l /\ (x == m)%Q) -> (maxQ l == m)%Q.
Proof.
  induction l as [|x l IH]; intros H (y & Hy & E); [easy|]. destruct l as [|z l].
  - destruct Hy as [<-|[]]. exact E.
  - cbn [maxQ]. fold (maxQ (z :: l)). pose proof (H x (or_introl eq_refl)) as Hx.
    assert (Hm : (maxQ (z :: l) <= m)%Q).
    { clear -H. assert (K : forall u, In u (z :: l) -> (u <= m)%Q) by (intros; apply H; now right). clear H. revert z K. induction l as [|u l IH]; intros z K; [apply K; now left|].
      change (maxQ (z :: u :: l)) with (qmax z (maxQ (u :: l))). unfold qmax. destruct (qlt z (maxQ (u :: l))); [apply IH; intros; apply K; now right|apply K; now left]. }
    change (match l with [] => z | _ => qmax z (maxQ l) end) with (maxQ (z :: l)).
    unfold qmax. destruct Hy as [<-|Hy].
    + destruct (qlt x (maxQ (z :: l))) eqn:El; [apply qlt_iff in El; lra|exact E].
    + assert (I : (maxQ (z :: l) == m)%Q) by (apply IH; [intros; apply H; now right|eauto]).
      destruct (qlt x (maxQ (z :: l))) eqn:El; [exact I|]. apply qlt_false in El. lra.
Qed.
Lemma comparisons_games (v : matrix) df categories l all j : all_finite df -> (forall i k, (v i k == score df categories l i k)%Q) -> In j all ->
  (comparisons v all j == qnat (games df categories l j))%Q.
Proof.
  intros F V J. unfold comparisons. apply maxQ_spec.
  - intros x Hx. apply in_map_iff in Hx. destruct Hx as (k & <- & _). rewrite !V, score_sum by assumption. apply qnat_le.
    unfold shared. rewrite (filter_ext _ (fun t => playing df categories t k && playing df categories t j)); [apply shared_le|intros t; apply andb_comm].
  - exists (v j j + v j j)%Q. split; [apply in_map_iff; eauto|]. rewrite !V. rewrite <- shared_self. now apply score_sum.
Qed.
Lemma games_pos df categories l j : cases df categories l -> In j (map who df) -> 0 < games df categories l j.
Proof.
  intros (_ & C) J. apply in_map_iff in J. destruct J as (r & E & Hr).
  assert (I : In (case categories r) (filter (fun t => playing df categories t j) l)).
  { apply filter_In. split; [apply C; eauto|]. apply playing_iff. unfold plays, losses_of. intros K. apply map_eq_nil in K.
    assert (I : In r (filter (fun r0 => if list_eq_dec Z.eq_dec (case categories r0) (case categories r) then who r0 =? j else false) df)).
    { apply filter_In. split; [exact Hr|]. destruct (list_eq_dec _ _ _); [now apply Nat.eqb_eq|contradiction]. }
    now rewrite K in I. }
  unfold games. fold (playing df categories). destruct (filter (fun t => playing df categories t j) l) eqn:Ef; [easy|].
  unfold playing in Ef. rewrite Ef. cbn. lia.
Qed.
Lemma rate_score (v : matrix) df categories l all i j : all_finite df -> cases df categories l -> (forall i k, (v i k == score df categories l i k)%Q) ->
  In j all -> In j (map who df) ->
  exists x, rate v all i j = Some x /\ (x * qnat (games df categories l j) == score df categories l i j)%Q.
Proof.
  intros F C V J J'. pose proof (comparisons_games v df categories l all j F V J) as E. pose proof (games_pos df categories l j C J') as P.
  assert (P' : (0 < qnat (games df categories l j))%Q) by (destruct (games df categories l j); [lia|apply qnat_pos]).
  unfold rate. destruct (Qeq_bool (comparisons v all j) 0) eqn:Eb; [apply Qeq_bool_iff in Eb; lra|].
  eexists. split; [reflexivity|]. rewrite V, E. field. lra.
Qed.

(** the ranking *)
From Coq Require Import Sorted.
Lemma place_perm {A} (le : A -> A -> bool) x l : Permutation (Nsga2.place le x l) (x :: l).
Proof. induction l as [|y l IH]; cbn; [easy|]. destruct (le x y); [easy|]. rewrite IH. apply perm_swap. Qed.
Lemma sort_perm {A} (le : A -> A -> bool) l : Permutation (stable_sort le l) l.
Proof. unfold stable_sort. induction l as [|x l IH]; cbn; [easy|]. rewrite place_perm. now constructor. Qed.
Lemma sort_sorted {A} (le : A -> A -> bool) l : (forall x y, le x y = false -> le y x = true) -> (forall x y z, le x y = true -> le y z = true -> le x z = true) ->
  StronglySorted (fun x y => le x y = true) (stable_sort le l).
Proof.
  intros T Tr. unfold stable_sort. induction l as [|x l IH]; cbn; [constructor|]. revert IH. generalize (fold_right (Nsga2.place le) [] l). clear l.
  induction l as [|y l IHl]; intros S0; cbn; [repeat constructor|]. inversion S0 as [|? ? S1 S2]; subst. destruct (le x y) eqn:E.
  - constructor; [exact S0|]. constructor; [exact E|]. eapply Forall_impl; [|exact S2]. intros z. now apply Tr.
  - constructor; [now apply IHl|]. eapply Permutation_Forall; [symmetry; apply place_perm|]. constructor; auto.
Qed.
Lemma above_total a b : negb (above a b) = false -> negb (above b a) = true.
Proof. destruct a as [x|], b as [y|]; cbn; auto. intros E. apply negb_false_iff, qlt_iff in E. apply negb_true_iff, not_true_iff_false. intros K. apply qlt_iff in K. lra. Qed.
Lemma above_trans a b c : negb (above b a) = true -> negb (above c b) = true -> negb (above c a) = true.
Proof.
  destruct a as [x|], b as [y|], c as [z|]; cbn; auto; try discriminate. rewrite !negb_true_iff. intros E1 E2. apply qlt_false in E1, E2.
  apply not_true_iff_false. intros K. apply qlt_iff in K. lra.
Qed.
Lemma ranking_perm v all : Permutation (ranking v all) all.
Proof. apply sort_perm. Qed.
Lemma ranking_sorted v all : StronglySorted (fun i j => negb (above (row_mean v all j) (row_mean v all i)) = true) (ranking v all).
Proof. apply sort_sorted; intros *; [apply above_total|apply above_trans]. Qed.
Lemma somes_map {A B} (f : A -> option B) (g : A -> B) l : (forall x, In x l -> f x = Some (g x)) -> somes (map f l) = map g l.
Proof. induction l as [|x l IH]; intros H; [reflexivity|]. unfold somes. cbn. rewrite H by now left. cbn. f_equal. apply IH. intros; apply H; now right. Qed.


Lemma row_mean_finite (v : matrix) df categories l all i : optimizers df all ->
  all_finite df -> cases df categories l -> (forall i k, (v i k == score df categories l i k)%Q) -> df <> [] ->
  exists m, row_mean v all i = Some m /\ (m * qnat (length all) == sumQ (map (fun j => val (rate v all i j)) all))%Q /\ (0 < qnat (length all))%Q.
Proof.
  intros (_ & O) F C V N. unfold row_mean. rewrite (somes_map _ (fun j => val (rate v all i j))).
  - destruct (map (fun j => val (rate v all i j)) all) as [|x r] eqn:E.
    + exfalso. apply map_eq_nil in E. destruct df as [|r df]; [easy|]. assert (I : In (who r) all) by (apply O; now left). now rewrite E in I.
    + eexists. split; [reflexivity|]. rewrite <- E, map_length. destruct all as [|j all']; [discriminate|]. pose proof (qnat_pos (length all')). cbn [length]. split; [field; lra|lra].
  - intros j Hj. destruct (rate_score v df categories l all i j F C V Hj) as (x & -> & _); [|reflexivity]. now apply O.
Qed.
Lemma floor_qnat q n : (q == qnat n)%Q -> Qfloor q = Z.of_nat n.
Proof. intros ->. apply Qfloor_Z. Qed.
Lemma StronglySorted_impl {A} (R R' : A -> A -> Prop) l : (forall x y, In x l -> In y l -> R x y -> R' x y) -> StronglySorted R l -> StronglySorted R' l.
Proof.
  intros H S0. induction S0 as [|x l S0 IH F]; [constructor|]. constructor.
  - apply IH. intros; apply H; auto; now right.
  - rewrite Forall_forall in *. intros y Hy. apply H; auto; [now left|now right].
Qed.
Lemma fight_table df categories l all : df <> [] -> all_finite df -> cases df categories l -> optimizers df all ->
  exists v, aggregate df categories all = Ok (v, length l) /\
    table df categories l all {| ranked := ranking v all; rates := rate v all; played := twice_self v; total := length l |}.
Proof.
  intros N F C O. destruct (aggregate_score all categories df N) as (v & E & V).
  { intros r Hr. apply O. now apply in_map. }
  pose proof (cases_perm _ _ _ _ (case_list_cases df categories) C) as P.
  assert (V' : forall i k, (v i k == score df categories l i k)%Q) by (intros i k; rewrite V; now apply score_perm).
  exists v. split; [rewrite E; now rewrite (Permutation_length P)|]. constructor; cbn [ranked rates played total].
  - apply ranking_perm.
  - eapply StronglySorted_impl; [|apply ranking_sorted]. intros i j _ _. cbv beta. intros H. unfold row_sum. cbn [rates].
    destruct (row_mean_finite v df categories l all i O F C V' N) as (m & Em & Sm & P1).
    destruct (row_mean_finite v df categories l all j O F C V' N) as (m' & Em' & Sm' & _). rewrite Em, Em' in H. cbn in H. apply negb_true_iff, qlt_false in H.
    rewrite <- Sm, <- Sm'. apply Qmult_le_compat_r; lra.
  - reflexivity.
  - intros i. unfold twice_self. apply floor_qnat. rewrite V'. now apply score_self.
  - intros i j Hj. apply (rate_score v df categories l all i j F C V' Hj). now apply O.
Qed.
Lemma optimizers_nodup df : optimizers df (nodup Nat.eq_dec (map who df)).
Proof. split; [apply NoDup_nodup|]. intros i. apply nodup_In. Qed.
Lemma sum_lt {A} (f g : A -> Q) l x : In x l -> (forall y, In y l -> (f y <= g y)%Q) -> (f x < g x)%Q -> (sumQ (map f l) < sumQ (map g l))%Q.
Proof.
  induction l as [|y l IH]; intros I H L; [easy|]. cbn [map]. rewrite !sumQ_cons. pose proof (H y (or_introl eq_refl)) as Hy. destruct I as [<-|I].
  - pose proof (sumQ_le f g l (fun z Hz => H z (or_intror Hz))). lra.
  - specialize (IH I (fun z Hz => H z (or_intror Hz)) L). lra.
Qed.
Lemma games_qpos df categories l j : cases df categories l -> In j (map who df) -> (0 < qnat (games df categories l j))%Q.
Proof. intros C J. pose proof (games_pos df categories l j C J). destruct (games df categories l j); [lia|apply qnat_pos]. Qed.
Lemma score_le_shared df categories l i j : all_finite df -> (score df categories l i j <= qnat (shared df categories l i j))%Q.
Proof. intros F. rewrite <- score_sum by assumption. pose proof (score_nonneg df categories l j i). lra. Qed.

(** an optimizer with a lower mean loss than all others in every case *)
Definition dominant df categories (l : list (list Z)) i : Prop :=
  forall t j, In t l -> j <> i -> plays df categories t j -> points (losses_of df categories t i) (losses_of df categories t j) = 1%Q.
Lemma dominant_scores df categories l i j : all_finite df -> dominant df categories l i -> j <> i ->
  (score df categories l i j == qnat (games df categories l j))%Q /\ (score df categories l j i == 0)%Q.
Proof.
  intros F D J. unfold games. change (fun t => match losses_of df categories t j with [] => false | _ => true end) with (fun t => playing df categories t j).
  unfold score. rewrite <- sum_ones. split.
  - apply sumQ_ext. intros t Ht. destruct (playing df categories t j) eqn:E.
    + rewrite D; auto; [reflexivity|]. now apply playing_iff.
    + unfold playing in E. destruct (losses_of df categories t j); [|discriminate]. destruct (losses_of df categories t i); reflexivity.
  - rewrite (sumQ_ext _ (fun _ => 0%Q)); [clear; induction l; cbn [map]; rewrite ?sumQ_cons, ?sumQ_nil; lra|]. intros t Ht. destruct (playing df categories t j) eqn:E.
    + apply playing_iff in E. pose proof (D t j Ht J E) as P. pose proof (points_sum (losses_of df categories t i) (losses_of df categories t j)) as S0.
      rewrite P in S0. specialize (S0 (losses_finite _ _ _ _ F) (losses_finite _ _ _ _ F)).
      pose proof (points_range (losses_of df categories t j) (losses_of df categories t i)). destruct (losses_of df categories t i), (losses_of df categories t j); lra.
    + unfold playing in E. destruct (losses_of df categories t j); [|discriminate]. reflexivity.
Qed.
Lemma dominant_plays df categories l i : df <> [] -> cases df categories l -> dominant df categories l i -> In i (map who df).
Proof.
  intros N (_ & C) D. destruct df as [|r df]; [easy|]. destruct (Nat.eq_dec (who r) i) as [E|E]; [left; exact E|].
  specialize (D (case categories r) (who r)). assert (P : plays (r :: df) categories (case categories r) (who r)).
  { unfold plays, losses_of. cbn. destruct (list_eq_dec _ _ _); [|contradiction]. rewrite Nat.eqb_refl. easy. }
  specialize (D (proj2 (C _) (ex_intro _ r (conj (or_introl eq_refl) eq_refl))) E P).
  destruct (losses_of (r :: df) categories (case categories r) i) as [|x a] eqn:El; [discriminate|].
  unfold losses_of in El. set (g := fun r0 : run => _) in El. destruct (filter g (r :: df)) as [|r' rest] eqn:Ef; [discriminate|].
  assert (I : In r' (filter g (r :: df))) by (rewrite Ef; now left). apply filter_In in I. destruct I as (I & G). unfold g in G.
  destruct (list_eq_dec _ _ _) in G; [|discriminate]. apply Nat.eqb_eq in G. apply in_map_iff. eauto.
Qed.
Lemma dominant_first df categories l all f i : df <> [] -> all_finite df -> cases df categories l -> optimizers df all -> table df categories l all f ->
  dominant df categories l i -> hd_error (ranked f) = Some i.
Proof.
  intros N F C O T D. assert (I : In i all) by (apply O; eapply dominant_plays; eauto).
  assert (Less : forall k, In k all -> k <> i -> (row_sum f all k < row_sum f all i)%Q).
  { intros k Hk Ki. unfold row_sum. apply (sum_lt _ _ _ i); auto.
    - intros j Hj. destruct (t_rates _ _ _ _ _ T i j Hj) as (x & -> & Ex). destruct (t_rates _ _ _ _ _ T k j Hj) as (y & -> & Ey). cbn [val].
      pose proof (games_qpos df categories l j C (proj1 (proj2 O j) Hj)) as G. apply (Qmult_le_r _ _ _ G). rewrite Ex, Ey.
      destruct (Nat.eq_dec j i) as [->|J].
      + destruct (dominant_scores df categories l i k F D Ki) as (_ & ->). apply score_nonneg.
      + destruct (dominant_scores df categories l i j F D J) as (-> & _). eapply Qle_trans; [now apply score_le_shared|]. apply qnat_le, shared_le.
    - destruct (t_rates _ _ _ _ _ T i i I) as (x & -> & Ex). destruct (t_rates _ _ _ _ _ T k i I) as (y & -> & Ey). cbn [val].
      pose proof (games_qpos df categories l i C (proj1 (proj2 O i) I)) as G. apply (Qmult_lt_r _ _ _ G). rewrite Ex, Ey.
      destruct (dominant_scores df categories l i k F D Ki) as (_ & ->). pose proof (score_self df categories l i F). lra. }
  pose proof (t_ranked _ _ _ _ _ T) as P. pose proof (t_sorted _ _ _ _ _ T) as S0.
  assert (I' : In i (ranked f)) by (eapply Permutation_in; [symmetry; exact P|exact I]).
  destruct (ranked f) as [|k r] eqn:Er; [easy|]. cbn. f_equal. destruct (Nat.eq_dec k i) as [E|E]; [exact E|]. exfalso.
  destruct I' as [K|I']; [contradiction|]. inversion S0 as [|? ? _ Fa]; subst. rewrite Forall_forall in Fa. specialize (Fa i I'). cbv beta in Fa.
  assert (Hk : In k all) by (eapply Permutation_in; [exact P|now left]). specialize (Less k Hk E). lra.
Qed.

(** permutations of the runs *)
Lemma losses_perm df df' categories t i : Permutation df df' -> Permutation (losses_of df categories t i) (losses_of df' categories t i).
Proof.
  intros P. unfold losses_of. apply Permutation_map. induction P as [|x l l' P IH|x y l|l l' l'' P1 IH1 P2 IH2]; cbn; [constructor| | |now rewrite IH1].
  - destruct (list_eq_dec _ _ _); [|exact IH]. destruct (who x =? i); [now constructor|exact IH].
  - destruct (list_eq_dec Z.eq_dec (case categories x) t), (list_eq_dec Z.eq_dec (case categories y) t); try reflexivity;
      destruct (who x =? i); try reflexivity; destruct (who y =? i); try reflexivity. apply perm_swap.
Qed.
Lemma total_perm a b : Permutation a b -> (total_of a == total_of b)%Q.
Proof.
  induction 1 as [|x l l' P IH|x y l|]; [reflexivity| | |lra].
  - change (total_of (x :: l)) with (match x with Some q => q + total_of l | None => total_of l end)%Q.
    change (total_of (x :: l')) with (match x with Some q => q + total_of l' | None => total_of l' end)%Q. destruct x; lra.
  - change (total_of (y :: x :: l)) with (match y with Some q => q + (match x with Some q => q + total_of l | None => total_of l end) | None => match x with Some q => q + total_of l | None => total_of l end end)%Q.
    change (total_of (x :: y :: l)) with (match x with Some q => q + (match y with Some q => q + total_of l | None => total_of l end) | None => match y with Some q => q + total_of l | None => total_of l end end)%Q.
    destruct x, y; lra.
Qed.
Lemma infinite_perm a b : Permutation a b -> infinite a = infinite b.
Proof.
  intros P. unfold infinite. apply eq_true_iff_eq. rewrite !existsb_exists. split; intros (x & Hx & E); exists x; split; auto; [now apply (Permutation_in x P)|].
  now apply (Permutation_in x (Permutation_sym P)).
Qed.
Lemma points_perm a a' b b' : Permutation a a' -> Permutation b b' -> (points a b == points a' b')%Q.
Proof.
  intros P P'. unfold points. pose proof (Permutation_length P) as L. pose proof (Permutation_length P') as L'.
  destruct a as [|x a], a' as [|x' a']; try discriminate; [reflexivity|]. destruct b as [|y b], b' as [|y' b']; try discriminate; [reflexivity|].
  rewrite (infinite_perm _ _ P), (infinite_perm _ _ P'), L, L'. destruct (infinite _); [reflexivity|]. destruct (infinite _); [reflexivity|].
  pose proof (total_perm _ _ P) as T. pose proof (total_perm _ _ P') as T'. rewrite T, T'. reflexivity.
Qed.

(** complete runs only *)
Lemma filter_length_le {A} (f : A -> bool) l : length (filter f l) <= length l.
Proof. induction l as [|x l IH]; cbn; [lia|]. destruct (f x); cbn; lia. Qed.
Lemma filter_full {A} (f : A -> bool) l : length (filter f l) = length l -> forall x, In x l -> f x = true.
Proof.
  induction l as [|y l IH]; cbn; [easy|]. pose proof (filter_length_le f l) as L. destruct (f y) eqn:E; cbn; [|lia]. intros [= H] x [<-|Hx]; auto.
Qed.
Lemma max_spec l : l <> [] -> (forall x, In x l -> (0 <= x)%Z) -> In (fold_right Z.max (-1)%Z l) l /\ forall x, In x l -> (x <= fold_right Z.max (-1)%Z l)%Z.
Proof.
  intros N P. split.
  - induction l as [|x l IH]; [easy|]. cbn. destruct l as [|y l].
    + left. specialize (P x (or_introl eq_refl)). cbn. lia.
    + destruct (Z.max_spec x (fold_right Z.max (-1)%Z (y :: l))) as [(_ & ->)|(_ & ->)]; [right|now left]. apply IH; [easy|]. intros; apply P; now right.
  - clear. induction l as [|y l IH]; [easy|]. intros x [<-|H]; cbn; [lia|]. specialize (IH x H). lia.
Qed.
Lemma complete_table df categories l : df <> [] -> all_finite df -> cases df categories l ->
  exists f kept l', winrates df categories true = Ok f /\ NoDup kept /\
    (forall i, In i kept <-> In i (map who df) /\ forall j, games df categories l j <= games df categories l i) /\
    cases (filter (fun r => existsb (Nat.eqb (who r)) kept) df) categories l' /\
    table (filter (fun r => existsb (Nat.eqb (who r)) kept) df) categories l' kept f.
Proof.
  intros N F C. set (all := nodup Nat.eq_dec (map who df)).
  destruct (fight_table df categories l all N F C (optimizers_nodup df)) as (v & E & T). pose proof (t_played _ _ _ _ _ T) as G. cbn [played] in G.
  set (best := fold_right Z.max (-1)%Z (map (twice_self v) all)). set (kept := filter (fun i => Z.eqb (twice_self v i) best) all).
  assert (Na : all <> []) by (destruct df as [|r df0]; [easy|]; intros K; assert (I : In (who r) all) by (apply nodup_In; now left); now rewrite K in I).
  destruct (max_spec (map (twice_self v) all)) as (M1 & M2).
  { intros K. now apply map_eq_nil in K. }
  { intros x Hx. apply in_map_iff in Hx. destruct Hx as (i & <- & _). rewrite G. lia. }
  fold best in M1, M2. apply in_map_iff in M1. destruct M1 as (b & Eb & Hb).
  assert (Kept : forall i, In i kept <-> In i (map who df) /\ forall j, games df categories l j <= games df categories l i).
  { intros i. unfold kept. rewrite filter_In. unfold all at 1. rewrite nodup_In. split; intros (Hi & H); (split; [exact Hi|]).
    - apply Z.eqb_eq in H. intros j. destruct (in_dec Nat.eq_dec j all) as [Hj|Hj].
      + specialize (M2 (twice_self v j) (in_map _ _ _ Hj)). rewrite <- H, !G in M2. lia.
      + assert (Z0 : games df categories l j = 0); [|lia]. unfold games.
        destruct (filter _ l) as [|t rest] eqn:Ef; [reflexivity|]. exfalso. apply Hj.
        assert (I : In t (filter (fun t => playing df categories t j) l)) by (unfold playing; rewrite Ef; now left). apply filter_In in I. destruct I as (_ & I).
        unfold playing, losses_of in I. set (g := fun r : run => _) in I. destruct (filter g df) as [|r rs] eqn:Eg; [discriminate|].
        assert (I' : In r (filter g df)) by (rewrite Eg; now left). apply filter_In in I'. destruct I' as (I' & Gr). unfold g in Gr.
        destruct (list_eq_dec _ _ _) in Gr; [|discriminate]. apply Nat.eqb_eq in Gr. apply nodup_In, in_map_iff. eauto.
    - apply Z.eqb_eq. specialize (H b). specialize (M2 (twice_self v i)). rewrite <- Eb, !G in *.
      assert (In (Z.of_nat (games df categories l i)) (map (twice_self v) all)) by (rewrite <- G; apply in_map; now apply nodup_In). specialize (M2 H0). lia. }
  set (df' := filter (fun r => existsb (Nat.eqb (who r)) kept) df).
  assert (Wd : forall i, In i kept <-> In i (map who df')).
  { intros i. split.
    - intros Hi. pose proof Hi as Hi'. apply Kept in Hi'. destruct Hi' as (Hw & _). apply in_map_iff in Hw. destruct Hw as (r & <- & Hr).
      apply in_map. apply filter_In. split; [exact Hr|]. apply existsb_exists. exists (who r). split; [exact Hi|apply Nat.eqb_refl].
    - intros Hi. apply in_map_iff in Hi. destruct Hi as (r & <- & Hr). apply filter_In in Hr. destruct Hr as (_ & Hr). apply existsb_exists in Hr.
      destruct Hr as (k & Hk & Ek). apply Nat.eqb_eq in Ek. now rewrite Ek. }
  assert (Nk : NoDup kept) by (apply NoDup_filter, NoDup_nodup).
  assert (Hbk : In b kept) by (apply filter_In; split; [exact Hb|now apply Z.eqb_eq]).
  destruct (fight_table df' categories (case_list df' categories) kept) as (v' & E' & T').
  - intros K. apply Wd in Hbk. now rewrite K in Hbk.
  - intros r Hr. apply filter_In in Hr. now apply F.
  - apply case_list_cases.
  - now split.
  - eexists _, kept, (case_list df' categories). split; [unfold winrates; fold all; rewrite E; cbn [bind fst]; fold best; fold kept; fold df'; rewrite E'; reflexivity|].
    split; [exact Nk|]. split; [exact Kept|]. split; [apply case_list_cases|exact T'].
Qed.
