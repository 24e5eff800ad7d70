(** Lemmas about the LSGO testbed *)
From Coq Require Import Reals Arith ZArith Bool Lia Lra List.
From Verif.Model Require Import Prelude Lsgo.
From Verif.Model Require CoreFuncs.
From Verif.Spec Require Import Lsgo.
From Verif.Spec Require CoreFuncs.
From Verif.Proofs Require CoreFuncs.
Import ListNotations.
Open Scope R_scope.

(** * Groups *)
Lemma slice_eq : forall {A} (p : list A) a b, (0 <= a <= b)%Z -> (b <= size p)%Z -> slice p a b = firstn (Z.to_nat (b - a)) (skipn (Z.to_nat a) p).
Proof.
  intros A p a b H K. unfold slice, bound. destruct (Z.ltb_spec a 0); [lia|]. destruct (Z.ltb_spec b 0); [lia|]. rewrite !Z.min_l by lia.
  f_equal. lia.
Qed.
Lemma size_firstn : forall {A} (p : list A) n k, (n + k <= length p)%nat -> length (firstn n (skipn k p)) = n.
Proof. intros A p n k H. rewrite firstn_length, skipn_length. lia. Qed.
Lemma skipn_add : forall {A} (l : list A) a b, skipn a (skipn b l) = skipn (b + a) l.
Proof. intros A l a b. revert l. induction b as [|b IH]; intros l; [reflexivity|]. destruct l; [now rewrite !skipn_nil|]. cbn. apply IH. Qed.
Lemma nth_seg : forall {A} (p : list A) n k j, (j < n)%nat -> nth_error (firstn n (skipn k p)) j = nth_error p (k + j).
Proof.
  intros A p n k j H. assert (E : nth_error (skipn k p) j = nth_error p (k + j)).
  { clear H. revert p. induction k as [|k IH]; intros p; [reflexivity|]. destruct p; [now destruct j|]. cbn. apply IH. }
  rewrite <- E. generalize (skipn k p). clear E. revert j H. induction n as [|n IH]; intros j H q; [lia|]. destruct q; [reflexivity|]. destruct j; [reflexivity|]. cbn. apply IH. lia.
Qed.
Lemma split_from_end : forall p ov dims start, snd (split_from p ov start dims) = (start + zsum dims - size dims * ov)%Z.
Proof.
  intros p ov. induction dims as [|d dims IH]; intros start; [cbn; lia|]. cbn [split_from]. specialize (IH (start + (d - ov))%Z).
  destruct (split_from p ov (start + (d - ov)) dims) as (gs & e). cbn [snd] in *. rewrite IH. cbn [zsum fold_right]. fold (zsum dims). unfold size. cbn [length]. lia.
Qed.
Lemma zsum_ge : forall ov dims, Forall (fun d => (ov <= d)%Z) dims -> (size dims * ov <= zsum dims)%Z.
Proof. intros ov dims H. induction H as [|d dims H _ IH]; [cbn; lia|]. cbn [zsum fold_right]. fold (zsum dims). unfold size in *. cbn [length]. lia. Qed.
Lemma split_from_spec : forall p ov, (0 <= ov)%Z -> forall dims start, (0 <= start)%Z -> Forall (fun d => (ov <= d)%Z) dims ->
  (dims <> [] -> start + zsum dims - size dims * ov + ov <= size p)%Z ->
  let gs := fst (split_from p ov start dims) in
  map size gs = dims /\ (forall g, In g gs -> incl g p) /\
  (forall j i, (dims <> [])%nat -> (start <= Z.of_nat j < start + zsum dims - size dims * ov + ov)%Z -> nth_error p j = Some i -> exists g, In g gs /\ In i g) /\
  (forall k g g', nth_error gs k = Some g -> nth_error gs (S k) = Some g' -> skipn (length g - Z.to_nat ov) g = firstn (Z.to_nat ov) g') /\
  (ov = 0%Z -> concat gs = firstn (Z.to_nat (zsum dims)) (skipn (Z.to_nat start) p)).
Proof.
  intros p ov O. induction dims as [|d dims IH]; intros start S0 F L.
  - cbn. repeat split; try tauto; intros [|k] g g' E; discriminate E.
  - inversion F as [|? ? F1 F2]; subst. specialize (L ltac:(discriminate)). pose proof (zsum_ge ov dims F2) as G.
    assert (Lz : zsum (d :: dims) = (d + zsum dims)%Z) by reflexivity. assert (Ls : (size (d :: dims) = 1 + size dims)%Z) by (unfold size; cbn [length]; lia).
    rewrite Lz, Ls in *. cbn [split_from].
    specialize (IH (start + (d - ov))%Z ltac:(lia) F2). pose proof (split_from_end p ov dims (start + (d - ov))) as E.
    destruct dims as [|d' dims'].
    + change (zsum []) with 0%Z in *. change (size []) with 0%Z in *. cbn [split_from fst snd map concat] in *. rewrite slice_eq by lia. replace (start + d - start)%Z with d by lia.
      assert (Lg : length (firstn (Z.to_nat d) (skipn (Z.to_nat start) p)) = Z.to_nat d) by (apply size_firstn; unfold size in *; lia).
      split; [|split; [|split; [|split]]].
      * unfold size at 1. rewrite Lg. f_equal. lia.
      * intros g [<-|[]] i I. rewrite <- (firstn_skipn (Z.to_nat start) p). apply in_or_app. right. rewrite <- (firstn_skipn (Z.to_nat d) (skipn (Z.to_nat start) p)). apply in_or_app. now left.
      * intros j i _ Hj N. eexists. split; [left; reflexivity|]. apply (nth_error_In _ (j - Z.to_nat start)). rewrite nth_seg by lia. rewrite <- N. f_equal. lia.
      * intros [|k] g g' _ E'; [|destruct k]; discriminate E'.
      * intros _. rewrite app_nil_r. f_equal. lia.
    + assert (N0 : (d' :: dims') <> []) by discriminate. specialize (IH ltac:(lia)).
      destruct (split_from p ov (start + (d - ov)) (d' :: dims')) as (gs & e) eqn:Es. cbn [fst snd] in *. destruct IH as (I1 & I2 & I3 & I4 & I5).
      rewrite slice_eq by lia. replace (start + d - start)%Z with d by lia.
      assert (Lg : length (firstn (Z.to_nat d) (skipn (Z.to_nat start) p)) = Z.to_nat d) by (apply size_firstn; unfold size in *; lia).
      split; [|split; [|split; [|split]]].
      * cbn [map]. rewrite I1. f_equal. unfold size. rewrite Lg. lia.
      * intros g [<-|I]; [|now apply I2]. intros i I. rewrite <- (firstn_skipn (Z.to_nat start) p). apply in_or_app. right. rewrite <- (firstn_skipn (Z.to_nat d) (skipn (Z.to_nat start) p)). apply in_or_app. now left.
      * intros j i _ Hj N. destruct (Z_lt_le_dec (Z.of_nat j) (start + d)) as [K|K].
        -- eexists. split; [left; reflexivity|]. apply (nth_error_In _ (j - Z.to_nat start)). rewrite nth_seg by lia. rewrite <- N. f_equal. lia.
        -- destruct (I3 j i N0 ltac:(lia) N) as (g & A & B). exists g. split; [now right|exact B].
      * intros [|k] g g' E1 E2; cbn [nth_error] in *; [|eauto]. injection E1 as <-. cbn [split_from] in Es. destruct (split_from p ov (start + (d - ov) + (d' - ov)) dims') as (gs' & e'). injection Es as <- <-.
        cbn [nth_error] in E2. injection E2 as <-. inversion F2 as [|? ? F3 F4]; subst. pose proof (zsum_ge ov dims' F4) as G'.
        assert (Lz' : zsum (d' :: dims') = (d' + zsum dims')%Z) by reflexivity. assert (Ls' : (size (d' :: dims') = 1 + size dims')%Z) by (unfold size; cbn [length]; lia).
        rewrite Lg. rewrite slice_eq by lia. rewrite firstn_firstn. rewrite Nat.min_l by lia. rewrite skipn_firstn_comm, skipn_add. f_equal; [lia|f_equal; lia].
      * intros ->. cbn [concat]. rewrite I5 by reflexivity. rewrite Z.sub_0_r. replace (Z.to_nat (start + d)) with (Z.to_nat start + Z.to_nat d)%nat by lia.
        rewrite <- skipn_add. assert (0 <= zsum (d' :: dims'))%Z by lia. replace (Z.to_nat (d + zsum (d' :: dims'))) with (Z.to_nat d + Z.to_nat (zsum (d' :: dims')))%nat by lia.
        set (q := skipn (Z.to_nat start) p) in *. rewrite <- (firstn_skipn (Z.to_nat d) q) at 3. rewrite firstn_app, Lg.
        rewrite (firstn_all2 (n := Z.to_nat d + _)) by lia. f_equal. f_equal. lia.
Qed.
Lemma nodupb_spec : forall l, nodupb l = true -> NoDup l.
Proof.
  induction l as [|x l IH]; cbn; intros H; constructor; apply andb_true_iff in H as (H1 & H2); [|auto]. intros I. apply negb_true_iff in H1.
  assert (E : existsb (Z.eqb x) l = true) by (apply existsb_exists; exists x; split; [exact I|apply Z.eqb_refl]). congruence.
Qed.
Lemma fold_min : forall l x i, In i (x :: l) -> (fold_left Z.min l x <= i)%Z.
Proof.
  induction l as [|y l IH]; intros x i [<-|I]; cbn [fold_left]; try lia; [destruct I| |]. 
  - specialize (IH (Z.min x y) (Z.min x y) (or_introl eq_refl)). lia.
  - destruct I as [<-|I]; [|apply IH; now right]. specialize (IH (Z.min x y) (Z.min x y) (or_introl eq_refl)). lia.
Qed.
Lemma fold_max : forall l x i, In i (x :: l) -> (i <= fold_left Z.max l x)%Z.
Proof.
  induction l as [|y l IH]; intros x i [<-|I]; cbn [fold_left]; try lia; [destruct I| |]. 
  - specialize (IH (Z.max x y) (Z.max x y) (or_introl eq_refl)). lia.
  - destruct I as [<-|I]; [|apply IH; now right]. specialize (IH (Z.max x y) (Z.max x y) (or_introl eq_refl)). lia.
Qed.
Lemma numbering_spec : forall p, NoDup p -> (forall i, In i p -> (0 <= i < size p)%Z) -> numbering p.
Proof.
  intros p N H. split; [exact N|]. intros i. split; [apply H|]. intros Hi.
  assert (I : incl (map Z.of_nat (seq 0 (length p))) p).
  { apply NoDup_length_incl; [exact N| |].
    - rewrite map_length, seq_length. lia.
    - intros j J. specialize (H j J). apply in_map_iff. exists (Z.to_nat j). unfold size in H. split; [lia|]. apply in_seq. lia. }
  apply I. apply in_map_iff. exists (Z.to_nat i). unfold size in Hi. split; [lia|]. apply in_seq. lia.
Qed.
Lemma split_spec : forall p dims ov gs, split p dims ov = Ok gs -> (0 <= ov)%Z -> Forall (fun d => (ov <= d)%Z) dims -> dims <> [] ->
  numbering p /\ groups p dims ov gs.
Proof.
  intros p dims ov gs H O F D. unfold split in H. destruct (nodupb p) eqn:N; [|discriminate H]. cbn [negb] in H. destruct p as [|x l]; [discriminate H|].
  destruct (Z.eqb_spec (fold_left Z.min l x) 0) as [M1|]; [|discriminate H]. destruct (Z.eqb_spec (fold_left Z.max l x) (size (x :: l) - 1)) as [M2|]; [|discriminate H].
  cbn [negb] in H. set (p := x :: l) in *. destruct (Z.eqb_spec (size p) (zsum dims - (size dims - 1) * ov)) as [Sz|]; [|discriminate H]. cbn [negb] in H.
  assert (Nu : numbering p).
  { apply numbering_spec; [now apply nodupb_spec|]. intros i I. pose proof (fold_min l x i I). pose proof (fold_max l x i I). lia. }
  split; [exact Nu|]. pose proof (split_from_spec p ov O dims 0 ltac:(lia) F) as Sp. destruct (split_from p ov 0 dims) as (gs' & e). cbn [fst] in Sp.
  destruct (Z.eqb_spec e (size p - ov)); [|discriminate H]. injection H as ->. destruct Sp as (S1 & S2 & S3 & S4 & S5); [lia|].
  split; [exact S1|]. split; [exact S2|]. split; [|split; [exact S4|]].
  - intros i I. destruct (In_nth_error p i I) as (j & J). apply (S3 j i D); [|exact J]. assert (K : (j < length p)%nat) by (apply nth_error_Some; congruence). unfold size in *. lia.
  - intros E. rewrite (S5 E). cbn [Z.to_nat skipn]. apply firstn_all2. subst ov. unfold size in *. lia.
Qed.

(** * Zeros *)
Notation zeros := (repeat 0).
Lemma sign_zero a : sign a = 0 <-> a = 0.
Proof. unfold sign. destruct (Rlt_dec 0 a), (Rlt_dec a 0); split; intros; lra. Qed.
Lemma irregular_zero a : irregular a = 0 <-> a = 0.
Proof.
  unfold irregular. match goal with |- sign a * exp ?e = 0 <-> _ => pose proof (exp_pos e) as P end. split.
  - intros H. apply Rmult_integral in H as [H|H]; [now apply sign_zero|lra].
  - intros H. rewrite (proj2 (sign_zero a) H). ring.
Qed.
Lemma asym_zero beta d i a : asym beta d i a = 0 <-> a = 0.
Proof.
  unfold asym, power. destruct (Rlt_dec 0 a) as [H|H]; [|tauto]. match goal with |- Rpower ?x ?e = 0 <-> _ => pose proof (CoreFuncs.Rpower_pos x e) end. split; intros; lra.
Qed.
Lemma ill_zero alpha d i a : ill alpha d i a = 0 <-> a = 0.
Proof.
  unfold ill. match goal with |- Rpower ?x ?e * _ = 0 <-> _ => pose proof (CoreFuncs.Rpower_pos x e) as P end. split; [|intros ->; ring].
  intros H. apply Rmult_integral in H as [H|H]; [lra|exact H].
Qed.
(** transforms of each coordinate *)
Definition pointwise (t : transf) : bool := match t with TIrregular | TAsym _ | TIll _ => true | _ => false end.
Lemma pointwise_zero t x : pointwise t = true -> exists y, apply_t t x = Ok y /\ length y = length x /\ (y = zeros (length x) <-> x = zeros (length x)).
Proof.
  intros H. destruct t; try discriminate H; cbn [apply_t]; eexists; (split; [reflexivity|]).
  - rewrite (CoreFuncs.map_mapi _ _ 0), CoreFuncs.mapi_length. split; [reflexivity|]. apply CoreFuncs.mapi_constant. intros _ a. apply irregular_zero.
  - rewrite CoreFuncs.mapi_eq, CoreFuncs.mapi_length. split; [reflexivity|]. apply CoreFuncs.mapi_constant. intros i a. apply asym_zero.
  - rewrite CoreFuncs.mapi_eq, CoreFuncs.mapi_length. split; [reflexivity|]. apply CoreFuncs.mapi_constant. intros i a. apply ill_zero.
Qed.
Lemma all_zero ts : forallb pointwise ts = true -> forall x, exists y, apply_all ts x = Ok y /\ length y = length x /\ (y = zeros (length x) <-> x = zeros (length x)).
Proof.
  induction ts as [|t ts IH]; cbn [forallb apply_all]; intros H x; [exists x; tauto|]. apply andb_true_iff in H as (H1 & H2).
  destruct (pointwise_zero t x H1) as (y & -> & L & Z). cbn [bind]. destruct (IH H2 y) as (u & -> & L' & Z'). exists u. rewrite L in *. tauto.
Qed.
(** a loss in dimension [d]: nonnegative, zero at zero only *)
Definition loss_ok (l : loss) (d : nat) : Prop := forall y, length y = d -> exists v, loss_value l y = Ok v /\ 0 <= v /\ (v = 0 <-> y = zeros d).
Lemma loss_ok_of dims l d : CoreFuncs.optimum dims (loss_value l) (fun _ => 0) (CoreFuncs.constant 0) -> dims d -> loss_ok l d.
Proof. intros H D y L. destruct (H d D) as (_ & G). exact (G y L). Qed.
Lemma losses_ok d : loss_ok LSphere d /\ loss_ok (LElliptic d) d /\ loss_ok LRastrigin d /\ loss_ok LSchwefel d /\ ((1 <= d)%nat -> loss_ok LAckley d).
Proof.
  split; [|split; [|split; [|split]]].
  - apply (loss_ok_of CoreFuncs.all_dims); [apply CoreFuncs.optimum_sphere|exact I].
  - intros y L. cbn. rewrite L, Nat.eqb_refl. destruct (CoreFuncs.optimum_ellipsoid d I) as (_ & G). exact (G y L).
  - apply (loss_ok_of CoreFuncs.all_dims); [apply CoreFuncs.optimum_rastrigin|exact I].
  - apply (loss_ok_of CoreFuncs.all_dims); [apply CoreFuncs.optimum_schwefel|exact I].
  - intros D. apply (loss_ok_of (CoreFuncs.from_dim 1)); [apply CoreFuncs.optimum_ackley|exact D].
Qed.
(** what a chunk returns on the vectors of dimension [n]: nonnegative, zero where [Z] holds *)
Definition chunk_ok (n : nat) (Z : vec -> Prop) (c : chunk) : Prop := forall x, length x = n -> exists v, chunk_call c x = Ok v /\ 0 <= v /\ (v = 0 <-> Z x).
Lemma apply_app ts us x : apply_all (ts ++ us) x = bind (apply_all ts x) (apply_all us).
Proof. revert x. induction ts as [|t ts IH]; intros x; [reflexivity|]. cbn. destruct (apply_t t x); [apply IH|reflexivity]. Qed.
Lemma chunk_spec n (Z : vec -> Prop) d s pre ts l : 0 < s -> forallb pointwise ts = true -> loss_ok l d ->
  (forall x, length x = n -> exists y, apply_all pre x = Ok y /\ length y = d /\ (y = zeros d <-> Z x)) -> chunk_ok n Z (Chunk s (pre ++ ts) l).
Proof.
  intros S T L H x Hx. unfold chunk_call. cbn [c_transforms c_loss c_scalar]. rewrite apply_app. destruct (H x Hx) as (y & -> & Ly & Zy). cbn [bind].
  destruct (all_zero ts T y) as (u & -> & Lu & Zu). cbn [bind]. rewrite Ly in *. destruct (L u Lu) as (v & -> & V & Zv). cbn [bind].
  exists (s * v). split; [reflexivity|]. split; [nra|]. rewrite <- Zy, <- Zu, <- Zv. split; [intros E; nra|intros ->; ring].
Qed.
Lemma item_spec (x : vec) i : (0 <= i < size x)%Z -> item x i = Ok (nth (Z.to_nat i) x 0).
Proof.
  intros H. unfold item. destruct (Z.ltb_spec i 0); [lia|]. destruct (Z.ltb_spec i 0); [lia|]. unfold size in H.
  rewrite (nth_error_nth' x 0) by lia. reflexivity.
Qed.
Lemma items_spec (x : vec) g : (forall i, In i g -> (0 <= i < size x)%Z) -> items x g = Ok (part x g).
Proof.
  induction g as [|i g IH]; intros H; [reflexivity|]. cbn [items]. rewrite item_spec by (apply H; now left). cbn [bind]. rewrite IH by (intros j J; apply H; now right). reflexivity.
Qed.
Lemma rot_spec d m x : rotation d m -> size x = d -> exists y, apply_t (TRot m) x = Ok y /\ size y = d /\ (y = zeros (length x) <-> x = zeros (length x)).
Proof.
  intros (Lm & R & Iso) Lx. cbn [apply_t]. assert (F : forallb (fun r => (length r =? length x)%nat) m = true).
  { apply forallb_forall. intros r Hr. rewrite Forall_forall in R. specialize (R r Hr). apply Nat.eqb_eq. unfold size in *. lia. }
  rewrite F. eexists. split; [reflexivity|]. assert (Ly : length (map (fun r => dot r x) m) = length x) by (rewrite map_length; unfold size in *; lia).
  split; [unfold size in *; lia|]. specialize (Iso x Lx). unfold CoreFuncs.constant in *.
  pose proof (CoreFuncs.sphere_zero (map (fun r => dot r x) m)) as A. pose proof (CoreFuncs.sphere_zero x) as B. rewrite Ly, Iso in A. unfold CoreFuncs.constant in *. tauto.
Qed.
Lemma apply_index n g ts x : length x = n -> (forall i, In i g -> (0 <= i < Z.of_nat n)%Z) -> apply_all (TIndex g (Z.of_nat n) :: ts) x = apply_all ts (part x g).
Proof. intros Hx Hg. cbn [apply_all apply_t]. rewrite Hx, Z.eqb_refl. rewrite items_spec by (unfold size; rewrite Hx; exact Hg). reflexivity. Qed.
Lemma apply_shift v ts x : length x = length v -> apply_all (TShift v :: ts) x = apply_all ts (CoreFuncs.minus x v).
Proof. intros H. cbn [apply_all apply_t]. unfold vsub. rewrite H, Nat.eqb_refl. reflexivity. Qed.
(** the chunk of a group *)
Lemma group_chunk n d m g s ts l : 0 < s -> forallb pointwise ts = true -> loss_ok l (length g) -> rotation d m -> size g = d ->
  (forall i, In i g -> (0 <= i < Z.of_nat n)%Z) -> chunk_ok n (fun x => part x g = zeros (length g)) (Chunk s ([TIndex g (Z.of_nat n); TRot m] ++ ts) l).
Proof.
  intros S T L R Lg Hg. apply (chunk_spec n _ (length g)); try assumption. intros x Hx. rewrite apply_index by assumption. assert (Lp : length (part x g) = length g) by apply map_length.
  destruct (rot_spec d m (part x g) R) as (y & E & Ly & Zy); [unfold size in *; lia|].
  cbn [apply_all]. rewrite E. cbn [bind]. exists y. split; [reflexivity|]. rewrite Lp in Zy. split; [unfold size in *; lia|exact Zy].
Qed.
Lemma side_chunk n g s ts l : 0 < s -> forallb pointwise ts = true -> loss_ok l (length g) ->
  (forall i, In i g -> (0 <= i < Z.of_nat n)%Z) -> chunk_ok n (fun x => part x g = zeros (length g)) (Chunk s ([TIndex g (Z.of_nat n)] ++ ts) l).
Proof.
  intros S T L Hg. apply (chunk_spec n _ (length g)); try assumption. intros x Hx. cbn [apply_all apply_t]. rewrite Hx, Z.eqb_refl.
  rewrite items_spec by (unfold size; rewrite Hx; exact Hg). cbn [bind]. eexists. split; [reflexivity|]. split; [apply map_length|tauto].
Qed.
Lemma shift_chunk n d m g v s ts l : 0 < s -> forallb pointwise ts = true -> loss_ok l (length g) -> rotation d m -> size g = d -> length v = length g ->
  (forall i, In i g -> (0 <= i < Z.of_nat n)%Z) -> chunk_ok n (fun x => part x g = v) (Chunk s ([TIndex g (Z.of_nat n); TShift v; TRot m] ++ ts) l).
Proof.
  intros S T L R Lg Lv Hg. apply (chunk_spec n _ (length g)); try assumption. intros x Hx. rewrite apply_index by assumption. assert (Lp : length (part x g) = length g) by apply map_length.
  rewrite apply_shift by congruence. assert (Lm : length (CoreFuncs.minus (part x g) v) = length g) by (rewrite CoreFuncs.minus_length; congruence).
  destruct (rot_spec d m (CoreFuncs.minus (part x g) v) R) as (y & E & Ly & Zy); [unfold size in *; lia|].
  cbn [apply_all]. rewrite E. cbn [bind]. exists y. split; [reflexivity|]. rewrite Lm in Zy. split; [unfold size in *; lia|]. rewrite Zy.
  pose proof (CoreFuncs.minus_zero (part x g) v ltac:(congruence)) as K. rewrite Lp in K. exact K.
Qed.
(** the sum of the chunks *)
Lemma sum_spec n (Zs : list (vec -> Prop)) cs : Forall2 (chunk_ok n) Zs cs -> forall x acc, length x = n -> exists v, sum_chunks cs x acc = Ok (acc + v) /\ 0 <= v /\ (v = 0 <-> Forall (fun Z => Z x) Zs).
Proof.
  induction 1 as [|Z c Zs cs H F IH]; intros x acc Hx; cbn [sum_chunks].
  - exists 0. split; [f_equal; ring|]. split; [lra|]. split; [constructor|reflexivity].
  - destruct (H x Hx) as (v & -> & V & E). cbn [bind]. destruct (IH x (acc + v) Hx) as (u & -> & U & G). exists (v + u). split; [f_equal; ring|]. split; [lra|]. split.
    + intros K. constructor; [apply E; lra|apply G; lra].
    + intros K. inversion K; subst. rewrite (proj2 E), (proj2 G) by assumption. ring.
Qed.

(** * The functions *)
Definition rots_ok (rots : list (Z * list vec)) : Prop := Forall (fun kv => (0 < fst kv)%Z /\ rotation (fst kv) (snd kv)) rots.
Lemma rotation_of_spec rots d m : rots_ok rots -> rotation_of rots d = Ok m -> (0 < d)%Z /\ rotation d m.
Proof.
  unfold rotation_of. intros H E. destruct (find (fun kv => (fst kv =? d)%Z) (rev rots)) as [(k & m')|] eqn:F; [|discriminate E]. cbn in E. injection E as ->.
  apply find_some in F as (I & K). cbn in K. apply Z.eqb_eq in K. subst k. apply in_rev in I. unfold rots_ok in H. rewrite Forall_forall in H. exact (H _ I).
Qed.
Definition parts_ok (parts : bool -> nat -> list transf * loss) : Prop :=
  forall side d, (1 <= d)%nat -> forallb pointwise (fst (parts side d)) = true /\ loss_ok (snd (parts side d)) d.
Definition all_zeros (g : list Z) (x : vec) : Prop := part x g = zeros (length g).
Lemma weighted_spec parts rots n : parts_ok parts -> rots_ok rots -> forall w gs cs, Forall (fun a => 0 < a) w -> (length w <= length gs)%nat ->
  (forall g i, In g gs -> In i g -> (0 <= i < Z.of_nat n)%Z) -> weighted parts rots (Z.of_nat n) w gs = Ok cs ->
  Forall2 (chunk_ok n) (map all_zeros (firstn (length w) gs)) cs.
Proof.
  intros P R. induction w as [|a w IH]; intros gs cs W L G E.
  - cbn in E. injection E as <-. constructor.
  - destruct gs as [|g gs]; [cbn in L; lia|]. cbn [weighted] in E. inversion W as [|? ? W1 W2]; subst.
    destruct (rotation_of rots (size g)) as [m|] eqn:Ro; [|discriminate E]. cbn [bind] in E. apply (rotation_of_spec _ _ _ R) in Ro as (Sz & Ro).
    assert (D : (1 <= length g)%nat) by (unfold size in Sz; lia). destruct (P false (length g) D) as (P1 & P2). destruct (parts false (length g)) as (ts & l). cbn [fst snd] in *.
    destruct (weighted parts rots (Z.of_nat n) w gs) as [cs'|] eqn:E'; [|discriminate E]. cbn [bind] in E. injection E as <-. cbn [length firstn map]. constructor.
    + unfold rmul, new_chunk. cbn [c_scalar c_transforms c_loss]. change (?a :: ?b :: ts) with ([a; b] ++ ts). unfold all_zeros. apply group_chunk with (d := size g); auto; [lra|].
      intros i I. apply (G g i); [now left|exact I].
    + apply IH; auto; [cbn in L; lia|]. intros g' i I J. apply (G g' i); [now right|exact J].
Qed.
Lemma part_cover p dims ov gs (t : vec) : numbering p -> groups p dims ov gs -> size t = size p -> Forall (fun Z => Z t) (map all_zeros gs) <-> t = zeros (length t).
Proof.
  intros (N & M) (_ & _ & C & _) L. rewrite Forall_map, Forall_forall. split.
  - intros H. apply (nth_ext _ _ 0 0); [now rewrite repeat_length|]. intros n Hn. rewrite nth_repeat. assert (I : In (Z.of_nat n) p) by (apply M; unfold size in *; lia).
    destruct (C _ I) as (g & G & J). specialize (H g G). unfold all_zeros, part in H.
    assert (K : In (nth (Z.to_nat (Z.of_nat n)) t 0) (map (fun i => nth (Z.to_nat i) t 0) g)) by (now apply (in_map (fun i => nth (Z.to_nat i) t 0))).
    rewrite H, Nat2Z.id in K. now apply repeat_spec in K.
  - intros -> g G. unfold all_zeros, part. induction g as [|i g IHg] in |- *; [reflexivity|]. cbn. rewrite IHg. f_equal. apply nth_repeat.
Qed.
Lemma split_last : forall A (l : list A) x r, rev l = x :: r -> l = firstn (length l - 1) l ++ [x].
Proof.
  intros A l x r H. assert (E : l = rev r ++ [x]) by (rewrite <- (rev_involutive l), H; reflexivity). rewrite E at 2 3. rewrite app_length. cbn [length].
  replace (length (rev r) + 1 - 1)%nat with (length (rev r)) by lia. rewrite firstn_app, Nat.sub_diag. cbn. rewrite app_nil_r, firstn_all. exact E.
Qed.
Lemma call_spec xopt o cs n Zs : length xopt = n -> Forall2 (chunk_ok n) Zs cs -> forall x, length x = n ->
  exists v, call (Lsgo xopt o cs) x = Ok v /\ 0 <= v /\ (v = 0 <-> Forall (fun Z => Z (CoreFuncs.minus x xopt)) Zs).
Proof.
  intros L F x Hx. unfold call. cbn [l_xopt l_chunks]. unfold vsub. rewrite Hx, L, Nat.eqb_refl. cbn [bind].
  destruct (sum_spec n Zs cs F (CoreFuncs.minus x xopt) 0) as (v & -> & V & E); [rewrite CoreFuncs.minus_length; congruence|]. exists v. rewrite Rplus_0_l. auto.
Qed.
Lemma zero_of xopt o cs n Zs : length xopt = n -> Forall2 (chunk_ok n) Zs cs -> (forall t, length t = n -> Forall (fun Z => Z t) Zs <-> t = zeros n) -> zero_at (call (Lsgo xopt o cs)) n xopt.
Proof.
  intros L F H. split; [exact L|].
  assert (K : forall x, length x = n -> exists v, call (Lsgo xopt o cs) x = Ok v /\ 0 <= v /\ (v = 0 <-> x = xopt)).
  { intros x Hx. destruct (call_spec xopt o cs n Zs L F x Hx) as (v & E & V & Z). exists v. split; [exact E|]. split; [exact V|]. rewrite Z.
    rewrite H by (rewrite CoreFuncs.minus_length; congruence). pose proof (CoreFuncs.minus_zero x xopt ltac:(congruence)) as M. rewrite Hx in M. exact M. }
  split.
  - destruct (K xopt L) as (v & E & _ & Z). rewrite E. f_equal. now apply Z.
  - intros x Hx N. destruct (K x Hx) as (v & E & V & Z). exists v. split; [exact E|]. destruct (Rle_lt_or_eq_dec 0 v V) as [P|P]; [exact P|]. symmetry in P. now apply Z in P.
Qed.
Lemma rotations_ok z r25 r50 r100 rots : sizes_ok z -> rotation (z_25 z) r25 -> rotation (z_50 z) r50 -> rotation (z_100 z) r100 ->
  rotations z r25 r50 r100 = Ok rots -> rots_ok rots.
Proof.
  intros (_ & _ & _ & A & B & C) R1 R2 R3 E. unfold rotations in E. destruct (square r25 && square r50 && square r100); [|discriminate E]. injection E as <-.
  unfold rots_ok. rewrite Forall_forall. intros kv [<-|[<-|[<-|[]]]]; cbn; auto.
Qed.
Lemma multipart_spec z ov parts xopt p s w r25 r50 r100 f : sizes_ok z -> (0 <= ov <= z_overlap z)%Z -> parts_ok parts -> data_ok z (DParts xopt p s w r25 r50 r100) ->
  multipart z ov parts xopt p s w r25 r50 r100 = Ok f -> l_optimum f = Some xopt /\ dimension f = length xopt /\ zero_at (call f) (length xopt) xopt.
Proof.
  intros Sz Ho P (W & Fs & R1 & R2 & R3) E. unfold multipart in E. set (rem := (z_total z - zsum s)%Z) in *.
  destruct ((rem =? 0)%Z || (rem =? z_rest z)%Z) eqn:C1; [|discriminate E]. cbn [negb] in E.
  destruct (Z.eqb_spec (size xopt) (size p)) as [Lx|]; [|discriminate E]. cbn [negb] in E.
  set (dims := s ++ (if (rem =? 0)%Z then [] else [rem])) in *. destruct (split p dims ov) as [gs|] eqn:Sp; [|discriminate E]. cbn [bind] in E.
  destruct (rotations z r25 r50 r100) as [rots|] eqn:Ro; [|discriminate E]. cbn [bind] in E. apply (rotations_ok z) in Ro; auto.
  destruct (Z.eqb_spec (size w) (size gs - (if (rem =? z_rest z)%Z then 1 else 0))) as [Lw|]; [|discriminate E]. cbn [negb] in E.
  destruct (weighted parts rots (size p) w gs) as [cs|] eqn:We; [|discriminate E]. cbn [bind] in E.
  assert (Fd : Forall (fun d => (ov <= d)%Z) dims).
  { subst dims. apply Forall_app. split; [eapply Forall_impl; [|exact Fs]; cbn; intros; lia|]. destruct (Z.eqb_spec rem 0); [constructor|]. constructor; [|constructor].
    cbn [orb] in C1. apply Z.eqb_eq in C1. destruct Sz. lia. }
  assert (Nd : dims <> []).
  { subst dims. destruct s; [|discriminate]. cbn in *. destruct (Z.eqb_spec rem 0) as [K|K]; [|discriminate]. subst rem. destruct Sz. lia. }
  destruct (split_spec p dims ov gs Sp ltac:(lia) Fd Nd) as (Nu & Gr).
  assert (In_range : forall g i, In g gs -> In i g -> (0 <= i < Z.of_nat (length xopt))%Z).
  { intros g i G I. destruct Gr as (_ & Inc & _). apply (Inc g G) in I. apply (proj2 Nu) in I. unfold size in *. lia. }
  assert (Zero : forall t, length t = length xopt -> Forall (fun Z => Z t) (map all_zeros gs) <-> t = zeros (length xopt)).
  { intros t Ht. rewrite <- Ht. apply (part_cover p dims ov); auto. unfold size in *. lia. }
  unfold size in We at 1. replace (length p) with (length xopt) in We by (unfold size in *; lia).
  destruct (Z.eqb_spec rem 0) as [K|K].
  - assert (Kr : (rem =? z_rest z)%Z = false) by (apply Z.eqb_neq; destruct Sz as (_ & _ & Sz & _); lia). rewrite Kr in Lw. injection E as <-. cbn [l_optimum]. split; [reflexivity|]. split; [reflexivity|].
    apply (zero_of _ _ _ _ (map all_zeros gs)); auto. apply (weighted_spec parts rots (length xopt)) in We; auto; [|unfold size in *; lia].
    replace (length w) with (length gs) in We by (unfold size in *; lia). now rewrite firstn_all in We.
  - cbn [orb] in C1. rewrite C1 in Lw. destruct (rev gs) as [|g r] eqn:Rg; [discriminate E|].
    assert (Gg : In g gs) by (apply in_rev; rewrite Rg; now left).
    assert (Lg : (1 <= length g)%nat).
    { destruct Gr as (Gr & _). assert (Kd : last (map size gs) 0%Z = rem) by (rewrite Gr; subst dims; apply last_last).
      rewrite (split_last _ gs g r Rg), map_app in Kd. cbn [map] in Kd. rewrite last_last in Kd. apply Z.eqb_eq in C1. unfold size in *. destruct Sz as (_ & _ & Sz & _). lia. }
    destruct (P true (length g) Lg) as (P1 & P2). destruct (parts true (length g)) as (ts & l). cbn [fst snd] in *. injection E as <-. cbn [l_optimum]. split; [reflexivity|]. split; [reflexivity|].
    apply (zero_of _ _ _ _ (map all_zeros gs)); auto. rewrite (split_last _ gs g r Rg). rewrite map_app. apply Forall2_app.
    + apply (weighted_spec parts rots (length xopt)) in We; auto; [|unfold size in *; lia]. replace (length w) with (length gs - 1)%nat in We by (unfold size in *; lia). exact We.
    + constructor; [|constructor]. unfold new_chunk, all_zeros. replace (size p) with (Z.of_nat (length xopt)) by (unfold size in *; lia).
      change (?a :: ts) with ([a] ++ ts). apply side_chunk; auto; [lra|]. intros i I. now apply (In_range g).
Qed.
Lemma parts_all : parts_ok p_elliptic /\ parts_ok p_rastrigin /\ parts_ok p_ackley /\ parts_ok p_schwefel.
Proof. repeat split; try (destruct side; reflexivity); destruct (losses_ok d) as (A & B & C & D & F); try destruct side; cbn [snd p_elliptic p_rastrigin p_ackley p_schwefel]; auto. Qed.
Lemma shifted_spec xopt ts l : forallb pointwise ts = true -> loss_ok l (length xopt) -> zero_at (call (new_lsgo xopt [new_chunk ts l])) (length xopt) xopt.
Proof.
  intros T L. apply (zero_of _ _ _ _ [fun t => t = zeros (length xopt)]); [reflexivity| |].
  - constructor; [|constructor]. apply (chunk_spec _ _ (length xopt) 1 [] ts l); auto; [lra|]. intros x Hx. exists x. cbn. tauto.
  - intros t Ht. split; [intros H; now inversion H|intros H; constructor; [exact H|constructor]].
Qed.
Lemma rosenbrock_spec xopt : (2 <= length xopt)%nat -> zero_at (call (Lsgo xopt (Some (map (fun a => a + 1) xopt)) [new_chunk [] LRosenbrock])) (length xopt) (map (fun a => a + 1) xopt).
Proof.
  intros D. split; [apply map_length|].
  assert (K : forall x, length x = length xopt -> exists v, call (Lsgo xopt (Some (map (fun a => a + 1) xopt)) [new_chunk [] LRosenbrock]) x = Ok v /\ 0 <= v /\ (v = 0 <-> x = map (fun a => a + 1) xopt)).
  { intros x Hx. unfold call. cbn [l_xopt l_chunks]. unfold vsub. rewrite Hx, Nat.eqb_refl. cbn. destruct (CoreFuncs.optimum_rosenbrock (length xopt) D) as (_ & G).
    destruct (G (CoreFuncs.minus x xopt)) as (v & E & V & Z); [rewrite CoreFuncs.minus_length; congruence|]. injection E as E. rewrite E. exists (0 + 1 * v). split; [reflexivity|]. split; [lra|].
    assert (M : CoreFuncs.minus x xopt = CoreFuncs.constant 1 (length xopt) <-> x = map (fun a => a + 1) xopt).
    { clear - Hx. unfold CoreFuncs.constant, CoreFuncs.minus. revert x Hx. induction xopt as [|b xopt IH]; intros [|a x] Hx; try discriminate Hx; [cbn; tauto|]. cbn [combine map length repeat fst snd].
      injection Hx as Hx. specialize (IH x Hx). split; intros H; injection H as H1 H2; f_equal; [lra|now apply IH|lra|now apply IH]. }
    rewrite <- M, <- Z. split; intros; lra. }
  split.
  - destruct (K _ (map_length (fun a => a + 1) xopt)) as (v & E & _ & Z). rewrite E. f_equal. now apply Z.
  - intros x Hx N. destruct (K x Hx) as (v & E & V & Z). exists v. split; [exact E|]. destruct (Rle_lt_or_eq_dec 0 v V) as [P|P]; [exact P|]. symmetry in P. now apply Z in P.
Qed.

Definition same_part (xopt : vec) (gx : list Z * list Z) (x : vec) : Prop := part x (fst gx) = part xopt (snd gx).
Lemma conflicting_chunks_spec rots n xopt : rots_ok rots -> forall w gs xs cs, Forall (fun a => 0 < a) w -> length w = length gs -> map size gs = map size xs ->
  (forall g i, In g gs -> In i g -> (0 <= i < Z.of_nat n)%Z) -> (forall g i, In g xs -> In i g -> (0 <= i < size xopt)%Z) ->
  conflicting_chunks rots (Z.of_nat n) xopt w gs xs = Ok cs -> Forall2 (chunk_ok n) (map (same_part xopt) (combine gs xs)) cs.
Proof.
  intros Ro. induction w as [|a w IH]; intros gs xs cs W L M G X E; (destruct gs as [|g gs]; [try discriminate L|try discriminate L]).
  - cbn in E. injection E as <-. constructor.
  - destruct xs as [|xi xs]; [discriminate M|]. cbn [conflicting_chunks] in E. inversion W as [|? ? W1 W2]; subst. cbn [map] in M. injection M as M1 M2.
    rewrite items_spec in E by (intros i I; apply (X xi i); [now left|exact I]). cbn [bind] in E.
    destruct (rotation_of rots (size g)) as [m|] eqn:R; [|discriminate E]. cbn [bind] in E. apply (rotation_of_spec _ _ _ Ro) in R as (Sz & R).
    destruct (conflicting_chunks rots (Z.of_nat n) xopt w gs xs) as [cs'|] eqn:E'; [|discriminate E]. cbn [bind] in E. injection E as <-. cbn [combine map]. constructor.
    + unfold rmul, new_chunk. cbn [c_scalar c_transforms c_loss]. unfold same_part. cbn [fst snd].
      change [TIndex g (Z.of_nat n); TShift (part xopt xi); TRot m; TIrregular; TAsym (2 / 10)] with ([TIndex g (Z.of_nat n); TShift (part xopt xi); TRot m] ++ [TIrregular; TAsym (2 / 10)]).
      apply shift_chunk with (d := size g); auto; [lra|apply losses_ok|unfold part; rewrite map_length; unfold size in M1; lia|]. intros i I. apply (G g i); [now left|exact I].
    + apply IH; auto; [intros g' i I J; apply (G g' i); [now right|exact J]|intros g' i I J; apply (X g' i); [now right|exact J]].
Qed.
Lemma minus_zeros : forall x : vec, CoreFuncs.minus x (zeros (length x)) = x.
Proof. unfold CoreFuncs.minus. induction x as [|a x IH]; [reflexivity|]. cbn. rewrite IH. f_equal. ring. Qed.
Lemma conflicting_spec z xopt p s w r25 r50 r100 f : sizes_ok z -> data_ok z (DParts xopt p s w r25 r50 r100) -> conflicting z xopt p s w r25 r50 r100 = Ok f ->
  l_optimum f = None /\ dimension f = length p /\
  exists gs xs, numbering p /\ groups p s (z_overlap z) gs /\ groups (arange (z_total z)) s 0 xs /\ size xopt = z_total z /\
    forall x, length x = dimension f -> exists v, call f x = Ok v /\ 0 <= v /\ (v = 0 <-> Forall2 (fun g xi => part x g = part xopt xi) gs xs).
Proof.
  intros Sz (W & Fs & R1 & R2 & R3) E. unfold conflicting in E. destruct (Z.eqb_spec (size xopt) (z_total z)) as [Lx|]; [|discriminate E]. cbn [negb] in E.
  destruct (Z.eqb_spec (size p) (z_small z)) as [Lp|]; [|discriminate E]. cbn [negb] in E.
  destruct (split p s (z_overlap z)) as [gs|] eqn:Sg; [|discriminate E]. cbn [bind] in E. destruct (split (arange (z_total z)) s 0) as [xs|] eqn:Sx; [|discriminate E]. cbn [bind] in E.
  destruct (rotations z r25 r50 r100) as [rots|] eqn:Ro; [|discriminate E]. cbn [bind] in E. apply (rotations_ok z) in Ro; auto.
  destruct (Z.eqb_spec (size w) (size gs)) as [Lw|]; [|discriminate E]. cbn [negb] in E.
  destruct (conflicting_chunks rots (size p) xopt w gs xs) as [cs|] eqn:C; [|discriminate E]. cbn [bind] in E. injection E as <-.
  assert (La : size (arange (z_total z)) = z_total z) by (unfold arange, size; rewrite map_length, seq_length; destruct Sz; lia).
  assert (Ns : s <> []).
  { intros ->. unfold split in Sx. destruct (nodupb (arange (z_total z))); [|discriminate Sx]. cbn [negb] in Sx. destruct (arange (z_total z)) as [|y l]; [discriminate Sx|].
    destruct (negb (fold_left Z.min l y =? 0)%Z); [discriminate Sx|]. destruct (negb (fold_left Z.max l y =? size (y :: l) - 1)%Z); [discriminate Sx|].
    rewrite La in Sx. cbn in Sx. destruct (Z.eqb_spec (z_total z) 0) as [K|K]; [destruct Sz; lia|discriminate Sx]. }
  destruct Sz as (S1 & S2 & S3). destruct (split_spec _ _ _ _ Sg ltac:(lia) Fs Ns) as (Nu & Gr).
  assert (Fs0 : Forall (fun d => (0 <= d)%Z) s) by (eapply Forall_impl; [|exact Fs]; cbn; intros; lia). destruct (split_spec _ _ _ _ Sx ltac:(lia) Fs0 Ns) as (Nx & Gx).
  cbn [l_optimum]. split; [reflexivity|]. assert (Dm : dimension (Lsgo (zeros (Z.to_nat (z_small z))) None cs) = length p) by (unfold dimension; cbn [l_xopt]; rewrite repeat_length; unfold size in *; lia).
  split; [exact Dm|]. exists gs, xs. split; [exact Nu|]. split; [exact Gr|]. split; [exact Gx|]. split; [exact Lx|]. intros x Hx. rewrite Dm in Hx.
  apply (conflicting_chunks_spec rots (length p) xopt) in C; auto.
  - destruct (call_spec (zeros (Z.to_nat (z_small z))) None cs (length p) _ ltac:(rewrite repeat_length; unfold size in *; lia) C x Hx) as (v & Ev & V & Z). exists v. split; [exact Ev|]. split; [exact V|].
    rewrite Z. replace (Z.to_nat (z_small z)) with (length x) by (unfold size in *; lia). rewrite minus_zeros. rewrite Forall_map, Forall_forall.
    assert (Lg : length gs = length xs) by (destruct Gr as (Gr & _); destruct Gx as (Gx & _); rewrite <- (map_length size gs), <- (map_length size xs); congruence).
    clear - Lg. revert xs Lg. induction gs as [|g gs IH]; intros [|xi xs] Lg; try discriminate Lg; [split; [constructor|intros _ ? []]|]. cbn [combine]. injection Lg as Lg. specialize (IH xs Lg). split.
    + intros H. constructor; [exact (H (g, xi) (or_introl eq_refl))|]. apply IH. intros gx I. apply H. now right.
    + intros H. inversion H; subst. intros gx [<-|I]; [assumption|]. now apply IH.
  - unfold size in Lw. lia.
  - destruct Gr as (Gr & _). destruct Gx as (Gx & _). congruence.
  - intros g i I J. destruct Gr as (_ & Inc & _). apply (Inc g I) in J. now apply Nu in J.
  - intros g i I J. destruct Gx as (_ & Inc & _). apply (Inc g I) in J. apply Nx in J. lia.
Qed.
