(** Proofs about the tells of multiple runs *)
From Coq Require Import List Arith QArith Qfield Bool Lia Lqa.
From Verif.Model Require Import Prelude MultiValue Pareto Hypervolume HypervolumePareto Msr.
From Verif.Model Require Float.
From Verif.Spec Require Import Msr.
From Verif.Proofs Require Import MultiValue.
Import ListNotations.
Open Scope nat_scope.

Lemma weigh_fin q w : exists r, weigh (Float.Fin q) w = Float.Fin r /\ (r == total w * q)%Q.
Proof.
  induction w as [|c w (r & E & IH)]; cbn [weigh fold_right total]; [exists 0%Q; split; [reflexivity|ring]|].
  change (fold_right _ _ w) with (weigh (Float.Fin q) w). rewrite E. cbn [Float.fl_mulq Float.fl_add]. eexists. split; [reflexivity|]. rewrite IH. ring.
Qed.
Lemma weigh_inf w : w <> [] -> Forall (Qlt 0) w -> weigh Float.PosInf w = Float.PosInf.
Proof.
  intros Hne H. destruct w as [|c w]; [congruence|]. clear Hne. revert c H. induction w as [|c' w IH]; intros c H; inversion H as [|? ? Hc Hw]; subst.
  - cbn. apply qlt_iff in Hc. now rewrite Hc.
  - change (weigh Float.PosInf (c :: c' :: w)) with (Float.fl_add (Float.fl_mulq Float.PosInf c) (weigh Float.PosInf (c' :: w))). rewrite (IH c' Hw). cbn. apply qlt_iff in Hc. now rewrite Hc.
Qed.
Lemma total_pos w : w <> [] -> Forall (Qlt 0) w -> (0 < total w)%Q.
Proof.
  intros Hne H. destruct w as [|c w]; [congruence|]. clear Hne. inversion H as [|? ? Hc Hw]; subst. cbn.
  assert (0 <= total w)%Q; [|lra]. clear - Hw. induction Hw as [|c w Hc Hw IH]; cbn; [lra|lra].
Qed.
Definition plain (l : Float.fl) : Prop := match l with Float.Fin _ | Float.PosInf => True | _ => False end.
Lemma weigh_times l w : plain l -> w <> [] -> Forall (Qlt 0) w -> times (total w) l (weigh l w).
Proof.
  intros P Hne H. destruct l; try destruct P; cbn [times]; [apply weigh_fin|now apply weigh_inf].
Qed.
Lemma times_lt k l l' v v' : (0 < k)%Q -> plain l -> plain l' -> times k l v -> times k l' v' -> Float.fl_lt v v' = Float.fl_lt l l'.
Proof.
  intros Hk P P' T T'. destruct l as [| |q|], l' as [| |q'|]; try destruct P; try destruct P'; cbn [times] in T, T'.
  - destruct T as (r & -> & E), T' as (r' & -> & E'). cbn. destruct (qlt q q') eqn:L.
    + apply qlt_iff in L. apply qlt_iff. rewrite E, E'. nra.
    + apply qlt_false in L. apply qlt_false. rewrite E, E'. nra.
  - destruct T as (r & -> & E). subst v'. reflexivity.
  - destruct T' as (r & -> & E). subst v. reflexivity.
  - subst. reflexivity.
Qed.

Section Run.
  Variable S : Type.
  Variable sub_tell : nat -> Float.fl -> S -> S * result unit.

  Lemma tell_copies_ok c loss : forall coeffs cand subs subs' r, tell_copies S sub_tell c loss coeffs cand subs = (subs', Ok r) -> length coeffs = length subs ->
    map snd subs' = map (fun lw => fst lw ++ [weigh loss (snd lw)]) (combine (map snd subs) coeffs).
  Proof.
    induction coeffs as [|w coeffs IH]; intros cand subs subs' r E L; destruct subs as [|[s log] subs]; try discriminate L; cbn [tell_copies] in E.
    - injection E as <- <-. reflexivity.
    - destruct (sub_tell c (weigh loss w) s) as [s' [[]|e]]; [|discriminate E]. destruct (tell_copies _ _ _ _ _ _ _) as [subs1 r1] eqn:E1. injection E as <- ->.
      cbn [map snd combine fst]. f_equal. injection L as L. eapply IH; eauto.
  Qed.
  Lemma tell_copies_length c loss : forall coeffs cand subs, length (fst (tell_copies S sub_tell c loss coeffs cand subs)) = length subs.
  Proof.
    induction coeffs as [|w coeffs IH]; intros cand subs; destruct subs as [|[s log] subs]; try reflexivity. cbn [tell_copies].
    destruct (sub_tell c (weigh loss w) s) as [s' [[]|e]]; [|reflexivity]. specialize (IH (weigh loss w) subs).
    destruct (tell_copies _ _ _ _ _ _ _) as [subs1 r1]. cbn in *. congruence.
  Qed.

  (** the scalar losses of a run, from the state of the hypervolume *)
  Fixpoint scalars (tells : list (nat * list Q)) (hp : option hpareto) : list (result Float.fl) :=
    match tells with
    | [] => []
    | (c, losses) :: tells => let (hp, r) := scalar_loss c losses hp in r :: scalars tells hp
    end.
  Lemma scalar_plain c losses hp l : snd (scalar_loss c losses hp) = Ok l -> plain l.
  Proof.
    unfold scalar_loss. intros E.
    assert (G : forall h, snd (let (h, r) := hp_add (c, losses) h in (Some h, bind r (fun l => Ok (to_fl l)))) = Ok l -> plain l).
    { intros h. destruct (hp_add (c, losses) h) as [h' [l'|e]]; cbn; [|discriminate]. intros E'. injection E' as <-. now destruct l'. }
    destruct losses as [|a [|b losses]]; [now apply G in E| |now apply G in E]. cbn in E. injection E as <-. exact I.
  Qed.
  (** what one successful tell adds to the logs *)
  Lemma run_logs draw : draw <> [] -> forall tells m m' rs, (ms_coeffs m = [] \/ ms_coeffs m = draw) -> length draw = length (ms_subs m) ->
    msr_run S sub_tell draw tells m = (m', rs) -> Forall (fun r => exists l, r = Ok l) rs ->
    exists hs, scalars tells (ms_hp m) = map Ok hs /\ Forall plain hs /\ length (ms_subs m') = length (ms_subs m) /\
      map snd (ms_subs m') = map (fun lw => fst lw ++ map (fun h => weigh h (snd lw)) hs) (combine (map snd (ms_subs m)) draw).
  Proof.
    intros Hd. induction tells as [|[c losses] tells IH]; intros m m' rs HC HL E F; cbn [msr_run scalars] in *.
    - injection E as <- <-. exists []. split; [reflexivity|]. split; [constructor|]. split; [reflexivity|]. cbn [map].
      assert (L : length draw = length (map snd (ms_subs m))) by now rewrite map_length. revert L. generalize (map snd (ms_subs m)) draw. clear.
      intros l. induction l as [|a l IH]; intros d L; destruct d; try discriminate L; cbn; [reflexivity|]. rewrite app_nil_r. f_equal. apply IH. now injection L.
    - destruct (msr_tell S sub_tell draw c losses m) as [m1 r] eqn:E1. destruct (msr_run S sub_tell draw tells m1) as [m2 rs'] eqn:E2. injection E as <- <-.
      inversion F as [|? ? (l & Hl) F']; subst. unfold msr_tell in E1.
      assert (PL := scalar_plain c losses (ms_hp m)). destruct (scalar_loss c losses (ms_hp m)) as [hp [h|e]]; [|discriminate E1]. specialize (PL h eq_refl).
      set (coeffs := match ms_coeffs m with [] => draw | cs => cs end) in E1. assert (EC : coeffs = draw) by (unfold coeffs; destruct HC as [-> | ->]; [reflexivity|destruct draw; reflexivity]).
      rewrite EC in E1. destruct (tell_copies S sub_tell c h draw h (ms_subs m)) as [subs1 r1] eqn:ET. injection E1 as <- ->.
      pose proof (tell_copies_length c h draw h (ms_subs m)) as LT. rewrite ET in LT. cbn in LT.
      pose proof (tell_copies_ok c h draw h (ms_subs m) subs1 l ET HL) as LG.
      destruct (IH (Msr hp draw subs1) m2 rs' (or_intror eq_refl) ltac:(cbn; lia) E2 F') as (hs & H1 & H2 & H3 & H4). cbn [ms_hp ms_subs] in *.
      exists (h :: hs). split; [cbn; now rewrite H1|]. split; [now constructor|]. split; [lia|]. rewrite H4, LG. clear - HL.
      assert (L : length draw = length (map snd (ms_subs m))) by now rewrite map_length. revert L. generalize (map snd (ms_subs m)) draw. clear.
      intros l. induction l as [|a l IH]; intros d L; destruct d; try discriminate L; cbn; [reflexivity|]. rewrite <- app_assoc. f_equal. apply IH. now injection L.
  Qed.
  Lemma init_logs draw subs tells m rs : draw <> [] -> length draw = length subs -> msr_run S sub_tell draw tells (msr_init S subs) = (m, rs) -> Forall (fun r => exists l, r = Ok l) rs ->
    exists hs, scalars tells None = map Ok hs /\ Forall plain hs /\ map snd (ms_subs m) = map (fun w => map (fun h => weigh h w) hs) draw.
  Proof.
    intros Hd HL E F. destruct (run_logs draw Hd tells (msr_init S subs) m rs (or_introl eq_refl) ltac:(cbn; now rewrite map_length) E F) as (hs & H1 & H2 & _ & H4).
    exists hs. split; [exact H1|]. split; [exact H2|]. rewrite H4. cbn [msr_init ms_subs]. rewrite map_map. cbn [snd]. revert HL. generalize draw. clear.
    induction subs as [|s subs IH]; intros d L; destruct d; try discriminate L; cbn; [reflexivity|]. f_equal. apply IH. now injection L.
  Qed.
End Run.
Lemma scalars_single tells : forall hp ls, map snd tells = map (fun l => [l]) ls -> scalars tells hp = map (fun l => Ok (Float.Fin l)) ls.
Proof.
  induction tells as [|[c losses] tells IH]; intros hp ls E; destruct ls as [|l ls]; try discriminate E; [reflexivity|]. cbn in E. injection E as -> E.
  cbn [scalars scalar_loss map]. f_equal. now apply IH.
Qed.
Lemma scalars_several tells : Forall (fun t => 2 <= length (snd t)) tells -> forall hp,
  scalars tells hp = map (fun r => bind r (fun l => Ok (to_fl l))) (hypervolume_losses (match hp with Some h => h | None => hp_init None auto_bound false end) tells).
Proof.
  induction tells as [|[c losses] tells IH]; intros F hp; [reflexivity|]. inversion F as [|? ? H F']; subst. cbn [snd] in H. cbn [scalars hypervolume_losses map].
  unfold scalar_loss. destruct losses as [|a [|b losses]]; cbn [length] in H; try lia. set (h := match hp with Some h => h | None => _ end).
  destruct (hp_add (c, a :: b :: losses) h) as [h' r] eqn:E. cbn [fst snd]. f_equal. apply IH. exact F'.
Qed.
