(** C93: reading the value of a parameter with a constraint searches for a value which satisfies it. *)
From Coq Require Import Arith ZArith QArith Bool Lia Lqa List.
From Verif.Model Require Import Prelude MultiValue Pareto Hypervolume HypervolumePareto ConstraintLayer.
From Verif.Spec Require Import Pareto ConstraintLayer.
From Verif.Proofs Require Import MultiValue Pareto ConstraintLayer.
Import ListNotations.
Open Scope nat_scope.

(** A value which already satisfies the constraint is read as it is, for one evaluation of the constraint, frozen or not. *)
Theorem C93_satisfied V (opt : searcher V) f budget p : cache p = None -> meets (f (data p)) ->
  exists q, read opt f budget p = (q, [data p], Ok (data p)) /\ data q = data p /\ frozen q = frozen p.
Proof.
  intros C M. unfold read. rewrite C. destruct (losses (f (data p))) as [l|e] eqn:E.
  - rewrite (proj2 (losses_satisfied _ _ E) M). eexists. split; [reflexivity|]. auto.
  - destruct (f (data p)); try discriminate; easy.
Qed.
Print Assumptions C93_satisfied.

(** Otherwise, with one constraint, the points proposed by the optimizer are evaluated until one satisfies it or the budget is exhausted,
    and the value is the one among them which misses the constraint the least: it satisfies it as soon as one of them does. *)
Theorem C93_search V (opt : searcher V) f budget p : (forall v, numeric (f v)) -> recommends_best opt ->
  cache p = None -> frozen p = false -> ~ meets (f (data p)) -> 0 < budget ->
  exists q tried v, read opt f budget p = (q, data p :: tried, Ok v) /\ data q = v /\
    proposed opt (fun w => [excess (f w)]) tried /\ until (fun w => meets (f w)) budget tried /\
    In v tried /\ (forall w, In w tried -> (excess (f v) <= excess (f w))%Q) /\
    (meets (f v) <-> exists w, In w tried /\ meets (f w)).
Proof.
  intros F B C Fr N Hb. unfold read. rewrite C, (losses_numeric _ (F (data p))).
  destruct (satisfied [excess (f (data p))]) eqn:Es; [apply (losses_satisfied (f (data p))) in Es; [easy|apply losses_numeric, F]|].
  destruct (search_one opt f F B (data p) budget [] (hp_init None 15 false)) as (tried & E & P & U); [apply proposed_nil|constructor|].
  change (search opt f (data p) budget [] (hp_init None 15 false) = (hist (fun w => [excess (f w)]) tried, hp_init None 15 false, Ok tt)) in E. rewrite E. cbn [app] in P.
  destruct (front_one opt f B (data p) tried (hp_init None 15 false)) as (v & Ef & Hv & M).
  { intros ->. destruct U as [(before & w & E' & _)|(L & _)]; [now destruct before|cbn in L; lia]. }
  rewrite Ef, Fr, hist_fst. cbn [fst]. exists {| data := v; cache := Some v; frozen := false |}, tried, v. repeat split; auto.
  - intros Mv. eauto.
  - intros (w & Hw & Mw). apply meets_excess; auto. apply meets_excess in Mw; auto. specialize (M w Hw). lra.
Qed.
Print Assumptions C93_search.

(** With several constraints the same holds when the budget is at most 15, the number of points which set the bounds of the front: the value
    is one which no point evaluated dominates. *)
Theorem C93_many V (opt : searcher V) f d budget p : (forall v, vector (S (S d)) (f v)) ->
  cache p = None -> frozen p = false -> ~ meets (f (data p)) -> 0 < budget <= 15 ->
  exists q tried v, read opt f budget p = (q, data p :: tried, Ok v) /\ data q = v /\
    proposed opt (fun w => misses (f w)) tried /\ until (fun w => meets (f w)) budget tried /\
    In v tried /\ (forall w, In w tried -> ~ dom (misses (f w)) (misses (f v))) /\
    (meets (f v) <-> exists w, In w tried /\ meets (f w)).
Proof.
  intros F C Fr N Hb. unfold read. rewrite C. destruct (losses_vector _ _ (F (data p))) as (El & _). rewrite El.
  destruct (satisfied (misses (f (data p)))) eqn:Es; [now apply (losses_satisfied _ _ El) in Es|].
  destruct (search_many opt f d F (data p) budget [] (hp_init None 15 false)) as (tried & s & E & P & U & I);
    [cbn [length]; lia|apply inv_init|apply proposed_nil|constructor|].
  change (search opt f (data p) budget [] (hp_init None 15 false) = (hist (fun w => misses (f w)) tried, s, Ok tt)) in E. rewrite E. cbn [app] in P, I.
  destruct (front_many opt f d F (data p) tried s I) as (v & s' & Ef & Hv & M & _).
  { intros ->. destruct U as [(before & w & E' & _)|(L & _)]; [now destruct before|cbn in L; lia]. }
  rewrite Ef, Fr, hist_fst. cbn [fst]. exists {| data := v; cache := Some v; frozen := false |}, tried, v. repeat split; auto.
  - intros Mv. eauto.
  - intros (w & Hw & Mw). now apply (front_meets f d F tried v w).
Qed.
Print Assumptions C93_many.

(** Operations on a parameter: reading it with any constraint function, optimizer and budget of the layer, assigning, copying, freezing. *)
Inductive op (V : Type) : Type := Read | Assign (v : V) | Copy | Freeze.
Arguments Read {V}. Arguments Assign {V} v. Arguments Copy {V}. Arguments Freeze {V}.
Definition step {V} (opt : searcher V) f budget (p : par V) (o : op V) : par V :=
  match o with Read => fst (fst (read opt f budget p)) | Assign v => fst (assign p v) | Copy => copy p | Freeze => freeze p end.
Definition fresh {V} (v : V) : par V := {| data := v; cache := None; frozen := false |}.
Lemma coherent V (opt : searcher V) f budget ops : forall p, (forall v, cache p = Some v -> data p = v) ->
  forall v, cache (fold_left (step opt f budget) ops p) = Some v -> data (fold_left (step opt f budget) ops p) = v.
Proof.
  induction ops as [|o ops IH]; intros p H; [exact H|]. cbn [fold_left]. apply IH. intros v. destruct o as [|w| |]; cbn [step].
  - unfold read. destruct (cache p) as [c|] eqn:C; [cbn; rewrite C; auto|].
    destruct (losses (f (data p))) as [l|e]; [|cbn; rewrite C; auto].
    destruct (satisfied l); [cbn; congruence|]. destruct (search opt f (data p) budget [] (hp_init None 15 false)) as ((h, s), [u|e]);
      [|cbn; rewrite C; auto]. destruct (fst (front0 opt (data p) h s)) as [(w, lw)|e]; [|cbn; rewrite C; auto].
    destruct (frozen p); [cbn; rewrite C; auto|]. cbn. congruence.
  - unfold assign. destruct (frozen p); discriminate.
  - discriminate.
  - cbn. apply H.
Qed.
Lemma read_data V (opt : searcher V) f budget p q tried v : (forall v, cache p = Some v -> data p = v) ->
  read opt f budget p = (q, tried, Ok v) -> cache q = Some v /\ data q = v.
Proof.
  intros H. unfold read. destruct (cache p) as [c|] eqn:C; [intros [= <- <- <-]; split; auto|].
  destruct (losses (f (data p))) as [l|e]; [|discriminate]. destruct (satisfied l); [intros [= <- <- <-]; auto|].
  destruct (search opt f (data p) budget [] (hp_init None 15 false)) as ((h, s), [u|e]); [|discriminate].
  destruct (fst (front0 opt (data p) h s)) as [(w, lw)|e]; [|discriminate]. destruct (frozen p); [discriminate|]. intros [= <- <- <-]. auto.
Qed.
(** Whatever was done before, a value once read is read again without evaluating the constraint, also after freezing; a copy evaluates it once,
    and has the same value when it satisfies the constraint. *)
Theorem C93_stable V (opt : searcher V) f budget start ops q tried v :
  read opt f budget (fold_left (step opt f budget) ops (fresh start)) = (q, tried, Ok v) ->
  read opt f budget q = (q, [], Ok v) /\ snd (read opt f budget (freeze q)) = Ok v /\
  (meets (f v) -> exists r, read opt f budget (copy q) = (r, [v], Ok v)).
Proof.
  intros R0. apply read_data in R0; [|intros u; apply coherent; discriminate]. destruct R0 as (C & D). split; [unfold read; now rewrite C|].
  split; [unfold read; cbn; now rewrite C|]. intros M. destruct (C93_satisfied V opt f budget (copy q)) as (r & E & _); [easy|cbn; now rewrite D|].
  exists r. cbn [copy data] in E. rewrite D in E. exact E.
Qed.
Print Assumptions C93_stable.
(** A value which satisfies the constraint is read as assigned, whatever was read before, unless the parameter is frozen: this raises. *)
Theorem C93_assign V (opt : searcher V) f budget (p : par V) v : meets (f v) ->
  match assign p v with
  | (q, Ok _) => frozen p = false /\ exists r, read opt f budget q = (r, [v], Ok v)
  | (_, Err e) => frozen p = true /\ e = RuntimeError
  end.
Proof.
  intros M. unfold assign. destruct (frozen p); [easy|]. split; [easy|].
  destruct (C93_satisfied V opt f budget (fresh v)) as (r & E & _); [easy|exact M|]. exists r. exact E.
Qed.
Print Assumptions C93_assign.

(** A boolean is not accepted, whatever it says. *)
Theorem C93_bool V (opt : searcher V) f budget p b : cache p = None -> f (data p) = ABool b -> read opt f budget p = (p, [data p], Err TypeError).
Proof. intros C E. unfold read. now rewrite C, E. Qed.
Print Assumptions C93_bool.

(** Not guaranteed: with an optimizer which recommends a point of its own (CMA, TBPSA, EDA, BO...: every one which returns an array), the read
    raises after the first point, whatever this point, as soon as the budget is two. *)
Theorem C93_own_refuted V (opt : searcher V) f budget p : (forall v, numeric (f v)) -> (forall h, h <> [] -> own opt h <> None) ->
  cache p = None -> ~ meets (f (data p)) -> 2 <= budget ->
  read opt f budget p = (p, [data p; propose opt []], Err RuntimeError).
Proof.
  intros F O C N Hb. unfold read. rewrite C, (losses_numeric _ (F _)).
  destruct (satisfied [excess (f (data p))]) eqn:Es; [apply (losses_satisfied (f (data p))) in Es; [easy|apply losses_numeric, F]|].
  destruct budget as [|m]; [lia|].
  assert (St : stop opt (data p) [(propose opt [], [excess (f (propose opt []))])] (hp_init None 15 false) = (Err RuntimeError, hp_init None 15 false)).
  { cbn [stop front0]. destruct (own opt [(propose opt [], [excess (f (propose opt []))])]) eqn:Eo; [reflexivity|]. exfalso. eapply O; [|exact Eo]. easy. }
  assert (E : search opt f (data p) m [(propose opt [], [excess (f (propose opt []))])] (hp_init None 15 false) =
    ([(propose opt [], [excess (f (propose opt []))])], hp_init None 15 false, Err RuntimeError)).
  { destruct m as [|m]; [lia|]. cbn [search]. now rewrite St. }
  cbn [search stop]. rewrite (losses_numeric _ (F _)). cbn [tell]. rewrite E. reflexivity.
Qed.
Print Assumptions C93_own_refuted.
(** Not guaranteed: a frozen parameter can be read. The search is done, then the read raises; the parameter is left as it was. *)
Theorem C93_frozen_refuted V (opt : searcher V) f budget p : (forall v, numeric (f v)) -> recommends_best opt ->
  cache p = None -> frozen p = true -> ~ meets (f (data p)) -> exists tried, read opt f budget p = (p, tried, Err RuntimeError).
Proof.
  intros F B C Fr N. unfold read. rewrite C, (losses_numeric _ (F (data p))).
  destruct (satisfied [excess (f (data p))]) eqn:Es; [apply (losses_satisfied (f (data p))) in Es; [easy|apply losses_numeric, F]|].
  destruct (search_one opt f F B (data p) budget [] (hp_init None 15 false)) as (tried & E & P & U); [apply proposed_nil|constructor|].
  change (search opt f (data p) budget [] (hp_init None 15 false) = (hist (fun w => [excess (f w)]) tried, hp_init None 15 false, Ok tt)) in E. rewrite E. destruct tried as [|t tried].
  - cbn [hist map]. unfold front0. destruct (B []) as (E1 & E2 & _). rewrite E1, (E2 eq_refl), Fr. eexists. reflexivity.
  - destruct (front_one opt f B (data p) (t :: tried) (hp_init None 15 false)) as (v & Ef & Hv & M); [easy|].
    rewrite Ef, Fr. eexists. reflexivity.
Qed.
Print Assumptions C93_frozen_refuted.

(** Sample: points are integers, the constraint asks for at most three; the optimizer tries 10, 9, 8... and recommends the best. *)
Fixpoint least (h : history Z) : option (Z * list Q) :=
  match h with
  | [] => None
  | (v, l) :: h => match least h with Some (w, m) => if qle (hd 0%Q l) (hd 0%Q m) then Some (v, l) else Some (w, m) | None => Some (v, l) end
  end.
Definition down : searcher Z := {| propose h := (10 - Z.of_nat (length h))%Z; own h := None; best := least |}.
Lemma down_best : recommends_best down.
Proof.
  intros h. split; [reflexivity|]. split; [now intros ->|]. cbn [best down]. intros N. induction h as [|(v, l) h IH]; [easy|]. cbn [least].
  destruct h as [|x h].
  - exists v, l. cbn. split; [easy|]. split; [now left|]. intros w m [[= <- <-]|[]]. lra.
  - destruct IH as (w & m & -> & I & M); [easy|]. destruct (qle (hd 0%Q l) (hd 0%Q m)) eqn:E.
    + apply qle_iff in E. exists v, l. split; [easy|]. split; [now left|]. intros w' m' [[= <- <-]|H]; [lra|]. specialize (M _ _ H). lra.
    + apply qle_false in E. exists w, m. split; [easy|]. split; [now right|]. intros w' m' [[= <- <-]|H]; [lra|]. now apply (M w').
Qed.
Definition three (v : Z) : answer := ANum (inject_Z (v - 3)).
Example C93_search_example : read down three 100 (fresh 20%Z) =
  ({| data := 3%Z; cache := Some 3%Z; frozen := false |}, [20; 10; 9; 8; 7; 6; 5; 4; 3]%Z, Ok 3%Z).
Proof. vm_compute. reflexivity. Qed.
Example C93_budget_example : read down three 3 (fresh 20%Z) = ({| data := 8%Z; cache := Some 8%Z; frozen := false |}, [20; 10; 9; 8]%Z, Ok 8%Z).
Proof. vm_compute. reflexivity. Qed.
Example C93_search_hypotheses : (forall v, numeric (three v)) /\ recommends_best down /\ ~ meets (three 20).
Proof. split; [easy|]. split; [exact down_best|]. cbn. unfold Qle. cbn. lia. Qed.
Definition two_sided (v : Z) : answer := AVec [inject_Z (v - 7); inject_Z (6 - v)].
Example C93_many_example : read down two_sided 15 (fresh 20%Z) = ({| data := 7%Z; cache := Some 7%Z; frozen := false |}, [20; 10; 9; 8; 7]%Z, Ok 7%Z) /\
  (forall v, vector 2 (two_sided v)).
Proof. split; [vm_compute; reflexivity|easy]. Qed.
(** ... an optimizer which recommends the mean of the points *)
Definition averaging : searcher Z :=
  {| propose := propose down; own h := match h with [] => None | _ => Some (fold_right Z.add 0 (map fst h) / Z.of_nat (length h))%Z end; best := least |}.
Example C93_own_example : read averaging three 100 (fresh 20%Z) = (fresh 20%Z, [20; 10]%Z, Err RuntimeError) /\ (forall h, h <> [] -> own averaging h <> None).
Proof. split; [vm_compute; reflexivity|]. now intros [|x h]. Qed.
Example C93_frozen_example : exists tried, read down three 100 (freeze (fresh 20%Z)) = (freeze (fresh 20%Z), tried, Err RuntimeError).
Proof. apply C93_frozen_refuted; [easy|exact down_best|easy|easy|]. cbn. unfold Qle. cbn. lia. Qed.

(** Not guaranteed: the value misses the constraint by less than the one it replaces. The latter is not among the points of the search. *)
Theorem C93_worse_refuted : exists (f : Z -> answer) budget p q tried v, (forall v, numeric (f v)) /\ 0 < budget /\
  read down f budget p = (q, tried, Ok v) /\ (excess (f (data p)) < excess (f v))%Q.
Proof.
  exists three, 3, (fresh 4%Z), {| data := 8%Z; cache := Some 8%Z; frozen := false |}, [4; 10; 9; 8]%Z, 8%Z. split; [easy|]. split; [lia|].
  split; [vm_compute; reflexivity|]. reflexivity.
Qed.
Print Assumptions C93_worse_refuted.
(** Not guaranteed: a refused assignment has no effect. It drops the value which was found, and the parameter can no longer be read. *)
Theorem C93_refused_refuted : exists (p : par Z) v, snd (read down three 3 p) = Ok 8%Z /\ snd (assign p v) = Err RuntimeError /\
  snd (read down three 3 (fst (assign p v))) = Err RuntimeError.
Proof. exists (freeze {| data := 8%Z; cache := Some 8%Z; frozen := false |}), 1%Z. vm_compute. auto. Qed.
Print Assumptions C93_refused_refuted.
(** Not guaranteed beyond 15 points: that the search with several constraints stops at a point which satisfies them, or returns it. Point 17
    satisfies both, and is not kept: one constraint being satisfied by all the first points, no volume is below the bounds. *)
Definition count_up : searcher nat := {| propose h := S (length h); own h := None; best h := None |}.
Definition late (v : nat) : answer := AVec (if v <=? 15 then [0; 5]%Q else if v =? 16 then [0; 3]%Q else if v =? 17 then [0; 0]%Q else [0; 4]%Q).
Theorem C93_many_refuted : (forall v, vector 2 (late v)) /\ meets (late 17) /\
  exists q tried v, read count_up late 20 (fresh 0) = (q, tried, Ok v) /\ In 17 tried /\ length tried = 21 /\ v = 16 /\ ~ meets (late v).
Proof.
  split; [|split].
  - intros v. unfold late, vector. destruct (v <=? 15); [easy|]. destruct (v =? 16); [easy|]. now destruct (v =? 17).
  - cbn. repeat constructor; lra.
  - assert (E : read count_up late 20 (fresh 0) = ({| data := 16; cache := Some 16; frozen := false |}, seq 0 21, Ok 16)) by (vm_compute; reflexivity).
    do 3 eexists. split; [exact E|]. split; [apply in_seq; lia|]. split; [reflexivity|]. split; [reflexivity|].
    cbn. intros H. inversion H as [|? ? _ H2]; subst. inversion H2 as [|? ? H3 _]; subst. lra.
Qed.
Print Assumptions C93_many_refuted.

(** Not guaranteed: that a constraint means the same whether it is registered as a layer or not. [register_cheap_constraint] reads a positive
    number as satisfied, with [as_layer=True] as missed; and a negative number the other way round. *)
From Coq Require Import Reals Qreals Lra.
From Verif.Model Require Constraints.
Theorem C93_sign_refuted (q : Q) : ~ (q == 0)%Q ->
  (Constraints.satisfied [Constraints.OFloat (Q2R q)] = Ok true <-> ~ meets (ANum q)) /\
  (Constraints.satisfied [Constraints.OFloat (Q2R q)] = Ok false <-> meets (ANum q)).
Proof.
  intros N. cbn [Constraints.satisfied Constraints.float_penalty bind meets].
  assert (D : (q < 0)%Q \/ (0 < q)%Q) by (destruct (Qlt_le_dec q 0); [now left|right]; apply Qle_lteq in q0; destruct q0 as [H|H]; [exact H|]; exfalso; apply N; now symmetry).
  destruct D as [D|D]; pose proof (Qlt_Rlt _ _ D) as L; unfold Q2R in L at 1; unfold Q2R in L; cbn in L.
  - assert (E : Rmin 0 (Q2R q) = Q2R q) by (apply Rmin_right; unfold Q2R; Lra.lra). rewrite E.
    destruct (Rle_dec (- Q2R q) 0) as [K|K]; [exfalso; unfold Q2R in K; Lra.lra|]. split; split; try easy; intros; Lqa.lra.
  - assert (E : Rmin 0 (Q2R q) = 0%R) by (apply Rmin_left; unfold Q2R; Lra.lra). rewrite E.
    destruct (Rle_dec (- 0) 0) as [K|K]; [|exfalso; Lra.lra]. split; split; try easy; intros; Lqa.lra.
Qed.
Print Assumptions C93_sign_refuted.
