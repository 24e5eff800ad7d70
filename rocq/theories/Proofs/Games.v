(** Lemmas about the games. *)
From Coq Require Import ZArith QArith List Bool Lia Permutation.
From Verif.Model Require Import Prelude Games.
From Verif.Spec Require Import Games.
Import ListNotations.
Open Scope nat_scope.

(** * Sorting *)
Lemma insert_perm x l : Permutation (x :: l) (insert x l).
Proof.
  induction l as [|y l IH]; [reflexivity|]. cbn. destruct (x <=? y); [reflexivity|]. rewrite perm_swap. now constructor.
Qed.
Lemma sorted_perm l : Permutation l (sorted l).
Proof. induction l as [|x l IH]; [reflexivity|]. cbn. rewrite <- insert_perm. now constructor. Qed.
Lemma insert_comm x y l : insert x (insert y l) = insert y (insert x l).
Proof.
  induction l as [|z l IH]; cbn.
  - destruct (Nat.leb_spec x y), (Nat.leb_spec y x); try reflexivity; try lia. now replace x with y by lia.
  - destruct (Nat.leb_spec y z), (Nat.leb_spec x z); cbn;
    repeat match goal with |- context [?a <=? ?b] => destruct (Nat.leb_spec a b); try lia; cbn end; try reflexivity; try congruence.
    now replace x with y by lia.
Qed.
Lemma sorted_unique l l' : Permutation l l' -> sorted l = sorted l'.
Proof.
  induction 1 as [|x l l' P IH|x y l|l l' l'' P1 IH1 P2 IH2]; [reflexivity| |cbn; apply insert_comm|congruence].
  unfold sorted in *. cbn. now rewrite IH.
Qed.
Lemma sorted_length l : length (sorted l) = length l.
Proof. symmetry. apply Permutation_length, sorted_perm. Qed.
Lemma down_perm l : Permutation l (sorted_down l).
Proof. unfold sorted_down. rewrite <- Permutation_rev. apply sorted_perm. Qed.
Lemma down_unique l l' : Permutation l l' -> sorted_down l = sorted_down l'.
Proof. intros H. unfold sorted_down. now rewrite (sorted_unique _ _ H). Qed.
Lemma down_length l : length (sorted_down l) = length l.
Proof. symmetry. apply Permutation_length, down_perm. Qed.

Lemma outcome_le (a b : bool) : (if a then 1 else if b then 2 else 0) <= 2.
Proof. destruct a, b; lia. Qed.

(** * War *)
Lemma place_bound h w n s : 0 < w -> s <> [] -> Nat.even (length s) = true -> length s + n <= 2 * h -> Forall (fun c => c < w) s ->
  Nat.min n 9 * h * w + length s / 2 * w + hd 0 (sorted_down s) < 10 * h * w /\ 1 <= length s / 2 <= h /\ hd 0 (sorted_down s) < w /\ length s = 2 * (length s / 2).
Proof.
  intros Hw Hs He Hn Hc.
  assert (Hcw : hd 0 (sorted_down s) < w).
  { pose proof (down_perm s) as Hd. destruct (sorted_down s) as [|c l]; [exact Hw|]. rewrite Forall_forall in Hc. apply Hc. rewrite Hd. now left. }
  set (c := hd 0 (sorted_down s)) in *. apply Nat.even_spec in He. destruct He as (b & Hb).
  assert (Eb : length s / 2 = b) by (rewrite Hb, Nat.mul_comm; now apply Nat.div_mul). rewrite Eb.
  assert (1 <= b) by (destruct s; [contradiction|cbn in Hb; lia]).
  assert (b <= h) by lia. repeat split; try lia.
  pose proof (Nat.le_min_r n 9). pose proof (Nat.le_min_l n 9). assert (Nat.min n 9 <= 8 \/ 9 <= n) as [K|K] by lia.
  - assert (Nat.min n 9 * h * w <= 8 * h * w) by (repeat apply Nat.mul_le_mono_r; lia).
    assert (b * w <= h * w) by (now apply Nat.mul_le_mono_r). assert (w <= h * w) by nia. lia.
  - assert (b + 1 <= h) by lia. assert (Nat.min n 9 * h * w <= 9 * h * w) by (repeat apply Nat.mul_le_mono_r; lia).
    assert ((b + 1) * w <= h * w) by (now apply Nat.mul_le_mono_r). lia.
Qed.
Section War.
Variable shuffle : Q -> list nat -> list nat.
Variables h w : nat.
Hypothesis Hsh : shuffles shuffle.
Hypothesis Hw : 0 < w.

Definition all_cards (t : table) : list nat := hand1 t ++ hand2 t ++ stack t.
Definition war_inv (t : table) : Prop :=
  length (all_cards t) = 2 * h /\ Forall (fun c => c < w) (all_cards t) /\ Nat.even (length (stack t)) = true.

Lemma decide_ok p n s : fits (10 * h * w) p -> s <> [] -> Nat.even (length s) = true -> length s + n <= 2 * h -> Forall (fun c => c < w) s ->
  exists won, war_decide shuffle h w p n s = Ok won /\ Permutation s won.
Proof.
  intros Hp Hs He Hn Hc. unfold war_decide. destruct p as [p|]; [|eexists; split; [reflexivity|apply down_perm]]. cbn in Hp.
  rewrite <- Nat.negb_even, down_length, He. cbn [negb].
  pose proof (down_perm s) as Hd. destruct (sorted_down s) as [|c l] eqn:Ed.
  { apply Permutation_sym, Permutation_nil in Hd. contradiction. }
  assert (Hcw : c < w). { rewrite Forall_forall in Hc. apply Hc. rewrite Hd. now left. }
  destruct (nth_error p _) as [seed|] eqn:Ep.
  - destruct (Qeq_bool seed 0); eexists; split; try reflexivity; [exact Hd|]. rewrite Hd. apply Hsh.
  - exfalso. apply nth_error_None in Ep. rewrite Hp in Ep.
    assert (Hb : 2 * (length s / 2) <= length s) by (apply Nat.mul_div_le; lia). set (b := length s / 2) in *.
    pose proof (Nat.le_min_r n 9). pose proof (Nat.le_min_l n 9). assert (Nat.min n 9 <= 8 \/ 9 <= n) as [K|K] by lia.
    + assert (b <= h) by lia. assert (Nat.min n 9 * h * w <= 8 * h * w) by (repeat apply Nat.mul_le_mono_r; lia).
      assert (b * w <= h * w) by (now apply Nat.mul_le_mono_r). assert (1 <= h) by (destruct s; cbn in Hn; [contradiction|lia]).
      assert (w <= h * w) by nia. lia.
    + assert (b + 1 <= h) by lia. assert (Nat.min n 9 * h * w <= 9 * h * w) by (repeat apply Nat.mul_le_mono_r; lia).
      assert ((b + 1) * w <= h * w) by (now apply Nat.mul_le_mono_r). lia.
Qed.
Lemma turn_ok p1 p2 t : fits (10 * h * w) p1 -> fits (10 * h * w) p2 -> war_inv t ->
  (exists r, war_turn shuffle h w p1 p2 t = Over r /\ r <= 2) \/
  (exists t', war_turn shuffle h w p1 p2 t = Goes_on t' /\ war_inv t' /\ Permutation (all_cards t) (all_cards t')).
Proof.
  intros F1 F2 (Hl & Hc & He). destruct t as [h1 h2 s]. unfold all_cards in *. cbn [hand1 hand2 stack] in *. unfold war_turn. cbn [hand1 hand2 stack].
  destruct h1 as [|x1 h1], h2 as [|x2 h2]; try (left; eexists; split; [reflexivity|lia]).
  assert (Hc2 : Forall (fun c => c < w) (h1 ++ h2 ++ s ++ [x1; x2])).
  { apply Forall_app in Hc. destruct Hc as (A & B). apply Forall_app in B. destruct B as (B & C). inversion A; subst. inversion B; subst.
    repeat (apply Forall_app; split); auto. }
  assert (P : Permutation (x1 :: h1 ++ x2 :: h2 ++ s) (h1 ++ h2 ++ s ++ [x1; x2])).
  { rewrite (Permutation_middle h1 (h2 ++ s) x2) at 1 || idtac.
    transitivity (x1 :: x2 :: h1 ++ h2 ++ s). { constructor. apply Permutation_sym, Permutation_middle. }
    rewrite !app_assoc. rewrite <- (Permutation_app_comm [x1; x2]). reflexivity. }
  assert (Lall : length (h1 ++ h2 ++ s ++ [x1; x2]) = 2 * h). { rewrite <- Hl. apply Permutation_length, Permutation_sym. exact P. }
  assert (Hs : Nat.even (length (s ++ [x1; x2])) = true) by (rewrite app_length, Nat.even_add, He; reflexivity).
  assert (Hcs : Forall (fun c => c < w) (s ++ [x1; x2])) by (do 2 (apply Forall_app in Hc2; destruct Hc2 as (_ & Hc2)); exact Hc2).
  assert (Hn : s ++ [x1; x2] <> []) by (destruct s; discriminate).
  destruct (Nat.ltb_spec x2 x1).
  - destruct (decide_ok p1 (length h1) (s ++ [x1; x2]) F1 Hn Hs) as (won & E & Hp).
    { rewrite !app_length in *. lia. } { exact Hcs. }
    right. rewrite E. eexists. split; [reflexivity|]. unfold war_inv, all_cards. cbn [hand1 hand2 stack]. rewrite app_nil_r.
    assert (Q : Permutation (h1 ++ h2 ++ s ++ [x1; x2]) ((h1 ++ won) ++ h2)).
    { rewrite <- app_assoc. apply Permutation_app_head. rewrite Hp. apply Permutation_app_comm. }
    rewrite <- Q. split; [|exact P]. split; [rewrite <- Lall; apply Permutation_length; now symmetry|]. split; [|reflexivity].
    first [exact Hc2 | rewrite <- Q; exact Hc2].
  - destruct (Nat.ltb_spec x1 x2).
    + destruct (decide_ok p2 (length h2) (s ++ [x1; x2]) F2 Hn Hs) as (won & E & Hp).
      { rewrite !app_length in *. lia. } { exact Hcs. }
      right. rewrite E. eexists. split; [reflexivity|]. unfold war_inv, all_cards. cbn [hand1 hand2 stack]. rewrite app_nil_r.
      assert (Q : Permutation (h1 ++ h2 ++ s ++ [x1; x2]) (h1 ++ h2 ++ won)) by (now rewrite Hp).
      rewrite <- Q. split; [|exact P]. split; [rewrite <- Lall; apply Permutation_length; now symmetry|]. split; [|reflexivity].
      first [exact Hc2 | rewrite <- Q; exact Hc2].
    + destruct (Nat.ltb_spec (length h1) 2), (Nat.ltb_spec (length h2) 2); cbn [orb];
        try (left; eexists; split; [reflexivity|apply outcome_le]).
      destruct h1 as [|y1 h1]; [exfalso; clear - H1; cbn in H1; lia|]. destruct h2 as [|y2 h2]; [exfalso; clear - H2; cbn in H2; lia|].
      right. eexists. split; [reflexivity|]. unfold war_inv, all_cards. cbn [hand1 hand2 stack].
      assert (Q : Permutation ((y1 :: h1) ++ (y2 :: h2) ++ s ++ [x1; x2]) (h1 ++ h2 ++ (s ++ [x1; x2]) ++ [y1; y2])).
      { cbn [app]. transitivity (y1 :: y2 :: h1 ++ h2 ++ s ++ [x1; x2]). { constructor. apply Permutation_sym, Permutation_middle. }
        rewrite !app_assoc. rewrite <- (Permutation_app_comm [y1; y2]). reflexivity. }
      rewrite <- Q. split; [|exact P]. split; [rewrite <- Lall; apply Permutation_length; now symmetry|]. split.
      * first [exact Hc2 | rewrite <- Q; exact Hc2].
      * rewrite app_length, Nat.even_add, Hs. reflexivity.
Qed.
Lemma loop_ok n p1 p2 t : fits (10 * h * w) p1 -> fits (10 * h * w) p2 -> war_inv t -> exists r, war_loop shuffle h w n p1 p2 t = Ok r /\ r <= 2.
Proof.
  intros F1 F2. revert t. induction n as [|n IH]; intros t Hi; cbn; [exists 0; auto|].
  destruct (turn_ok p1 p2 t F1 F2 Hi) as [(r & E & Hr)|(t' & E & Hi' & _)]; rewrite E; eauto.
Qed.
Lemma reach_cards p1 p2 t t' : fits (10 * h * w) p1 -> fits (10 * h * w) p2 -> war_inv t -> war_reaches shuffle h w p1 p2 t t' ->
  Permutation (all_cards t) (all_cards t') /\ war_inv t'.
Proof.
  intros F1 F2 Hi R. induction R as [|t t' t'' E R IH]; [auto|]. destruct (turn_ok p1 p2 t F1 F2 Hi) as [(r & E' & _)|(t1 & E' & Hi' & P)]; [congruence|].
  rewrite E in E'. injection E' as <-. destruct (IH Hi') as (P' & Hi''). split; [now rewrite P|exact Hi''].
Qed.
(** exchanging the players *)
Definition mirror (t t' : table) : Prop := hand1 t' = hand2 t /\ hand2 t' = hand1 t /\ Permutation (stack t) (stack t').
Lemma decide_perm p n s s' : Permutation s s' -> war_decide shuffle h w p n s = war_decide shuffle h w p n s'.
Proof. intros H. unfold war_decide. now rewrite (down_unique _ _ H). Qed.
Lemma loop_mirror n p1 p2 t t' : mirror t t' ->
  war_loop shuffle h w n p2 p1 t' = match war_loop shuffle h w n p1 p2 t with Ok r => Ok (other_winner r) | Err e => Err e end.
Proof.
  clear Hw Hsh. revert t t'. induction n as [|n IH]; intros t t' (E1 & E2 & P); cbn; [reflexivity|]. unfold war_turn. rewrite E1, E2.
  destruct (hand1 t) as [|x1 h1], (hand2 t) as [|x2 h2]; try reflexivity.
  assert (Ps : Permutation (stack t ++ [x1; x2]) (stack t' ++ [x2; x1])) by (rewrite P; apply Permutation_app_head; apply perm_swap).
  destruct (Nat.ltb_spec x2 x1), (Nat.ltb_spec x1 x2); try lia.
  - rewrite (decide_perm p1 (length h1) _ _ Ps). destruct (war_decide shuffle h w p1 (length h1) _) as [won|e]; [|reflexivity].
    apply IH. split; [reflexivity|split; [reflexivity|constructor]].
  - rewrite (decide_perm p2 (length h2) _ _ Ps). destruct (war_decide shuffle h w p2 (length h2) _) as [won|e]; [|reflexivity].
    apply IH. split; [reflexivity|split; [reflexivity|constructor]].
  - rewrite orb_comm. destruct (_ || _) eqn:Eo.
    + destruct (Nat.ltb_spec (length h1) (length h2)), (Nat.ltb_spec (length h2) (length h1)); try lia; reflexivity.
    + destruct h1 as [|y1 h1]; [destruct h2; reflexivity|]. destruct h2 as [|y2 h2]; [reflexivity|].
      apply IH. split; [reflexivity|split; [reflexivity|]]. cbn [stack]. apply Permutation_app; [exact Ps|apply perm_swap].
Qed.
End War.

(** * Guess who *)
Lemma guess_range p mine his r : (2 <= mine)%Z -> (1 <= guesswho_play p mine his r <= mine - 1)%Z.
Proof. intros H. unfold guesswho_play. set (x := Z.max 1 _). assert (1 <= x <= mine - 1)%Z by lia. destruct (r <=? x)%Z; lia. Qed.
Lemma guess_loop m p1 p2 draw n d1 d2 : (2 <= d1)%Z -> (2 <= d2)%Z -> (d1 + d2 <= Z.of_nat m)%Z ->
  exists r, (r = 1 \/ r = 2) /\ forall fuel, m <= fuel -> guesswho_loop fuel p1 p2 draw n d1 d2 = Ok r.
Proof.
  revert n d1 d2. induction m as [|m IH]; intros n d1 d2 H1 H2 Hf; [lia|].
  pose proof (guess_range p2 d2 d1 (draw n d2) H2) as R2. set (e2 := guesswho_play p2 d2 d1 (draw n d2)) in *.
  assert (Hstep : forall fuel, guesswho_loop (S fuel) p1 p2 draw n d1 d2 = if (Z.min d1 e2 <=? 1)%Z then Ok 2 else
    if (Z.min (guesswho_play p1 d1 e2 (draw (S n) d1)) e2 <=? 1)%Z then Ok 1 else guesswho_loop fuel p1 p2 draw (S (S n)) (guesswho_play p1 d1 e2 (draw (S n) d1)) e2) by reflexivity.
  pose proof (guess_range p1 d1 e2 (draw (S n) d1) H1) as R1. set (e1 := guesswho_play p1 d1 e2 (draw (S n) d1)) in *.
  destruct (Z.leb_spec (Z.min d1 e2) 1).
  { exists 2. split; [now right|]. intros [|fuel] K; [lia|]. apply Hstep. }
  destruct (Z.leb_spec (Z.min e1 e2) 1).
  { exists 1. split; [now left|]. intros [|fuel] K; [lia|]. apply Hstep. }
  destruct (IH (S (S n)) e1 e2) as (r & Hr & E); [lia|lia|lia|]. exists r. split; [exact Hr|]. intros [|fuel] K; [lia|]. rewrite Hstep. apply E. lia.
Qed.

(** * Flip *)
Lemma pair_sorted_spec a b : pair_sorted a b = (Nat.min a b, Nat.max a b).
Proof. unfold pair_sorted. destruct (Nat.leb_spec a b); f_equal; lia. Qed.
Lemma sum_ok l acc : (forall x, In x l -> exists q, x = Ok q) -> exists q, sum_results l acc = Ok q.
Proof.
  revert acc. induction l as [|x l IH]; intros acc H; cbn; [eauto|]. destruct (H x (or_introl eq_refl)) as (q & ->). apply IH. intros y Hy. apply H. now right.
Qed.
Lemma state_length a b l1 l2 s0 s1 : length (flip_state a b l1 l2 s0 s1) = 57.
Proof. unfold flip_state. reflexivity. Qed.
Lemma value_ok p a b l1 l2 s0 s1 : fits (57 * 57) p -> exists q, flip_value p a b l1 l2 s0 s1 = Ok q.
Proof.
  intros Hp. unfold flip_value. destruct p as [p|]; [|eauto]. cbn in Hp. apply sum_ok. intros x Hx. apply in_flat_map in Hx. destruct Hx as (i & Hi & Hx).
  apply in_map_iff in Hx. destruct Hx as (j & <- & Hj). apply in_seq in Hi. apply in_seq in Hj.
  destruct (nth_error p (i * 57 + j)) eqn:E1; [|apply nth_error_None in E1; lia].
  pose proof (state_length a b l1 l2 s0 s1) as Hl.
  destruct (nth_error (flip_state a b l1 l2 s0 s1) i) eqn:E2; [|apply nth_error_None in E2; lia].
  destruct (nth_error (flip_state a b l1 l2 s0 s1) j) eqn:E3; [|apply nth_error_None in E3; lia]. eauto.
Qed.
Lemma qless_iff x y : qless x y = true <-> (x < y)%Q.
Proof.
  unfold qless. rewrite negb_true_iff. split.
  - intros H. apply Qnot_le_lt. intros K. apply Qle_bool_iff in K. congruence.
  - intros H. destruct (Qle_bool y x) eqn:E; [|reflexivity]. apply Qle_bool_iff in E. exfalso. now apply (Qlt_not_le x y).
Qed.
Lemma remove_at_split (before : list nat) c after : remove_at (length before) (before ++ c :: after) = before ++ after.
Proof.
  unfold remove_at. rewrite firstn_app, Nat.sub_diag, firstn_all. cbn [firstn]. rewrite app_nil_r. f_equal.
  rewrite skipn_app. rewrite skipn_all2 by lia. cbn [app]. now replace (S (length before) - length before) with 1 by lia.
Qed.
Section Search.
Variables (p : option policy) (mine his : list nat) (l1 l2 a0 a1 : nat).
Hypothesis Hp : fits (57 * 57) p.
Definition move_value (m : list nat * (nat * nat)) : result Q := flip_value p (fst m) his (l1 - 1) l2 (fst (snd m)) (snd (snd m)).
Definition try_move (t : nat * bool) (m : list nat * (nat * nat)) : Prop :=
  exists c, nth_error mine (fst t) = Some c /\ flip_match c (if snd t then a1 else a0) = true /\
            m = (remove_at (fst t) mine, pair_sorted c (if snd t then a0 else a1)).
Definition attempt (acc : result (Q * option (list nat * (nat * nat)))) (t : nat * bool) :=
  bind acc (fun bf =>
      match nth_error mine (fst t) with
      | None => Err IndexError
      | Some c =>
          let (on, other) := if snd t then (a1, a0) else (a0, a1) in
          if flip_match c on then
            let kept := remove_at (fst t) mine in
            let st := pair_sorted c other in
            bind (flip_value p kept his (l1 - 1) l2 (fst st) (snd st)) (fun v =>
              if qless v (fst bf) then Ok (v, Some (kept, st)) else Ok bf)
          else Ok bf
      end).
Definition search_inv (start : Q) (tried : list (nat * bool)) (v : Q) (found : option (list nat * (nat * nat))) : Prop :=
  (forall t m u, In t tried -> try_move t m -> move_value m = Ok u -> (v <= u)%Q) /\
  match found with
  | None => v = start
  | Some m => (v < start)%Q /\ move_value m = Ok v /\ exists t, In t tried /\ try_move t m
  end.
Lemma search_fold start todo tried v found : (forall t, In t todo -> fst t < length mine) -> search_inv start tried v found ->
  exists v' found', fold_left attempt todo (Ok (v, found)) = Ok (v', found') /\ search_inv start (tried ++ todo) v' found'.
Proof.
  revert tried v found. induction todo as [|t todo IH]; intros tried v found Hb Hi.
  { exists v, found. rewrite app_nil_r. split; [reflexivity|exact Hi]. }
  assert (Hb' : forall t, In t todo -> fst t < length mine) by (intros u Hu; apply Hb; now right).
  cbn [fold_left]. replace (tried ++ t :: todo) with ((tried ++ [t]) ++ todo) by (now rewrite <- app_assoc).
  assert (exists v' found', attempt (Ok (v, found)) t = Ok (v', found') /\ search_inv start (tried ++ [t]) v' found') as (v' & f' & E & Hi').
  { destruct (nth_error mine (fst t)) as [c|] eqn:Ec; [|apply nth_error_None in Ec; specialize (Hb t (or_introl eq_refl)); lia].
    assert (Es : attempt (Ok (v, found)) t =
      if flip_match c (if snd t then a1 else a0) then
        bind (move_value (remove_at (fst t) mine, pair_sorted c (if snd t then a0 else a1))) (fun u =>
          if qless u v then Ok (u, Some (remove_at (fst t) mine, pair_sorted c (if snd t then a0 else a1))) else Ok (v, found))
      else Ok (v, found)) by (unfold attempt; cbn [bind fst snd]; rewrite Ec; destruct (snd t); reflexivity).
    rewrite Es. clear Es. destruct Hi as (Hall & Hf).
    destruct (flip_match c (if snd t then a1 else a0)) eqn:Em.
    - set (m := (remove_at (fst t) mine, pair_sorted c (if snd t then a0 else a1))) in *.
      assert (Ht : forall m', try_move t m' -> m' = m) by (intros m' (c' & Ec' & _ & ->); rewrite Ec in Ec'; injection Ec' as <-; reflexivity).
      assert (Htm : try_move t m) by (exists c; auto).
      destruct (value_ok p (fst m) his (l1 - 1) l2 (fst (snd m)) (snd (snd m)) Hp) as (u & Eu). unfold move_value. rewrite Eu. cbn [bind].
      destruct (qless u v) eqn:El.
      + apply qless_iff in El. exists u, (Some m). split; [reflexivity|]. split.
        * intros t' m' u' Hin Htm' Eu'. apply in_app_iff in Hin. destruct Hin as [Hin|[<-|[]]].
          -- specialize (Hall t' m' u' Hin Htm' Eu'). apply Qle_trans with v; [now apply Qlt_le_weak|exact Hall].
          -- apply Ht in Htm'. subst m'. unfold move_value in Eu'. rewrite Eu in Eu'. injection Eu' as <-. apply Qle_refl.
        * split; [|split; [exact Eu|exists t; split; [apply in_app_iff; right; now left|exact Htm]]].
          destruct found as [m0|]; [destruct Hf as (Hlt & _); now apply Qlt_trans with v|now subst v].
      + assert (Hvu : (v <= u)%Q). { apply Qnot_lt_le. intros K. apply qless_iff in K. congruence. }
        exists v, found. split; [reflexivity|]. split.
        * intros t' m' u' Hin Htm' Eu'. apply in_app_iff in Hin. destruct Hin as [Hin|[<-|[]]]; [now apply (Hall t' m' u')|].
          apply Ht in Htm'. subst m'. unfold move_value in Eu'. rewrite Eu in Eu'. now injection Eu' as <-.
        * destruct found as [m0|]; [|exact Hf]. destruct Hf as (H1 & H2 & t0 & H3 & H4). repeat split; auto. exists t0. split; [apply in_app_iff; now left|exact H4].
    - exists v, found. split; [reflexivity|]. split.
      + intros t' m' u' Hin Htm' Eu'. apply in_app_iff in Hin. destruct Hin as [Hin|[<-|[]]]; [now apply (Hall t' m' u')|].
        destruct Htm' as (c' & Ec' & Em' & _). rewrite Ec in Ec'. injection Ec' as <-. congruence.
      + destruct found as [m0|]; [|exact Hf]. destruct Hf as (H1 & H2 & t0 & H3 & H4). repeat split; auto. exists t0. split; [apply in_app_iff; now left|exact H4]. }
  rewrite E. destruct (IH (tried ++ [t]) v' f' Hb' Hi') as (v'' & f'' & E' & Hi''). eauto.
Qed.
Lemma tries_in i b : In (i, b) (flat_map (fun i => [(i, false); (i, true)]) (seq 0 (length mine))) <-> i < length mine.
Proof.
  rewrite in_flat_map. split.
  - intros (j & Hj & K). apply in_seq in Hj. destruct K as [K|[K|[]]]; injection K as <- _; lia.
  - intros H. exists i. split; [apply in_seq; lia|]. destruct b; [right; now left|now left].
Qed.
Lemma legal_try kept st : legal mine a0 a1 kept st <-> exists t, fst t < length mine /\ try_move t (kept, st).
Proof.
  split.
  - intros (before & c & after & E & -> & on & other & Ho & Hm & ->). exists (length before, if Nat.eq_dec on a0 then (if Nat.eq_dec other a1 then false else true) else true).
    cbn [fst]. split; [rewrite E, app_length; cbn; lia|]. exists c. cbn [fst snd]. rewrite E, nth_error_app2, Nat.sub_diag by lia. split; [reflexivity|].
    rewrite remove_at_split, <- pair_sorted_spec.
    destruct (Nat.eq_dec on a0), (Nat.eq_dec other a1); destruct Ho as [(? & ?)|(? & ?)]; subst; try congruence; auto.
  - intros ((i & b) & Hi & c & Ec & Hm & E). cbn [fst snd] in *. injection E as -> ->. apply nth_error_split in Ec. destruct Ec as (before & after & E & <-).
    exists before, c, after. split; [exact E|]. split; [rewrite E; apply remove_at_split|].
    exists (if b then a1 else a0), (if b then a0 else a1). split; [destruct b; auto|]. split; [exact Hm|apply pair_sorted_spec].
Qed.
Lemma search_spec : exists start, flip_value p mine his l1 l2 a0 a1 = Ok start /\
  ((flip_search p mine his l1 l2 a0 a1 = Ok None /\ forall kept st u, legal mine a0 a1 kept st -> move_value (kept, st) = Ok u -> (start <= u)%Q) \/
   (exists kept st v, flip_search p mine his l1 l2 a0 a1 = Ok (Some (kept, st)) /\ legal mine a0 a1 kept st /\ move_value (kept, st) = Ok v /\ (v < start)%Q /\
      forall kept' st' u, legal mine a0 a1 kept' st' -> move_value (kept', st') = Ok u -> (v <= u)%Q)).
Proof.
  destruct (value_ok p mine his l1 l2 a0 a1 Hp) as (start & Es). exists start. split; [exact Es|].
  set (tries := flat_map (fun i => [(i, false); (i, true)]) (seq 0 (length mine))).
  assert (Ef : flip_search p mine his l1 l2 a0 a1 = bind (flip_value p mine his l1 l2 a0 a1) (fun start => bind (fold_left attempt tries (Ok (start, None))) (fun bf => Ok (snd bf)))) by reflexivity.
  rewrite Ef, Es. cbn [bind].
  destruct (search_fold start tries [] start None) as (v & found & E & Hall & Hf).
  - intros (i & b) Hin. now apply (proj1 (tries_in i b)).
  - split; [intros t m u []|reflexivity].
  - rewrite E. cbn [bind snd app] in *.
    assert (Hall' : forall kept st u, legal mine a0 a1 kept st -> move_value (kept, st) = Ok u -> (v <= u)%Q).
    { intros kept st u Hl Eu. apply legal_try in Hl. destruct Hl as ((i & b) & Hi & Ht). apply (Hall (i, b) (kept, st) u); auto. now apply tries_in. }
    destruct found as [(kept & st)|].
    + right. destruct Hf as (Hlt & Ev & (i & b) & Hin & Ht). exists kept, st, v. repeat split; auto.
      apply legal_try. exists (i, b). split; [now apply (tries_in i b)|exact Ht].
    + left. split; [reflexivity|]. subst v. exact Hall'.
Qed.
End Search.

(** every turn uses up a card *)
Definition left_over (t : flip_table) : nat := length (v1 t) + length (c1 t) + length (v2 t) + length (c2 t).
Lemma legal_shorter mine a0 a1 kept st : legal mine a0 a1 kept st -> length mine = S (length kept).
Proof. intros (b & c & a & -> & -> & _). rewrite !app_length. cbn. lia. Qed.
Lemma drawn_length cards : length (drawn cards) + length (tl cards) = length cards.
Proof. destruct cards; reflexivity. Qed.
Lemma first_ok p t : fits (57 * 57) p ->
  (flip_first p t = Played false t) \/ (flip_first p t = Won 1) \/
  (exists t', flip_first p t = Played true t' /\ S (left_over t') = left_over t).
Proof.
  intros Hp. unfold flip_first.
  destruct (search_spec p (v1 t) (v2 t) (length (v1 t) + length (c1 t)) (length (v2 t) + length (c2 t)) (s0 t) (s1 t) Hp) as (start & _ & [(E & _)|(kept & st & v & E & Hl & _)]); rewrite E.
  - now left.
  - right. destruct (sorted (kept ++ drawn (c1 t))) as [|x l] eqn:Es; [now left|right]. rewrite <- Es. eexists. split; [reflexivity|]. unfold left_over. cbn [v1 v2 c1 c2].
    apply legal_shorter in Hl. rewrite sorted_length, app_length. pose proof (drawn_length (c1 t)). lia.
Qed.
Lemma second_ok p t : fits (57 * 57) p ->
  (flip_second p t = Played false t) \/ (exists t', flip_second p t = Played true t' /\ S (left_over t') = left_over t).
Proof.
  intros Hp. unfold flip_second.
  destruct (search_spec p (v2 t) (v1 t) (length (c2 t) + length (v2 t)) (length (c1 t) + length (v1 t)) (s0 t) (s1 t) Hp) as (start & _ & [(E & _)|(kept & st & v & E & Hl & _)]); rewrite E.
  - now left.
  - right. pose proof (sorted_length (kept ++ drawn (c2 t))) as Hs. rewrite app_length in Hs. apply legal_shorter in Hl.
    pose proof (drawn_length (c2 t)) as Hd. exists {| v1 := v1 t; v2 := sorted (kept ++ drawn (c2 t)); c1 := c1 t; c2 := tl (c2 t); s0 := fst st; s1 := snd st |}. split.
    + destruct (c2 t) as [|x l]; [reflexivity|]. cbn [drawn length] in Hs. destruct (sorted (kept ++ drawn (x :: l))) as [|y l'] eqn:Es; [|reflexivity].
      cbn [drawn] in Es. rewrite Es in Hs. cbn in Hs. lia.
    + unfold left_over. cbn [v1 v2 c1 c2]. lia.
Qed.
Lemma flip_turn_ok p1 p2 t : fits (57 * 57) p1 -> fits (57 * 57) p2 ->
  (exists r, flip_turn p1 p2 t = Flip_over r /\ r <= 2) \/ (exists t', flip_turn p1 p2 t = Flip_on t' /\ left_over t' < left_over t).
Proof.
  intros F1 F2. unfold flip_turn. destruct (first_ok p1 t F1) as [E|[E|(t1 & E & H1)]]; rewrite E.
  - destruct (second_ok p2 t F2) as [E2|(t2 & E2 & H2)]; rewrite E2; cbn [orb].
    + destruct (c1 t) as [|a k1] eqn:C1; [left; eexists; split; [reflexivity|apply outcome_le]|].
      destruct (c2 t) as [|b k2] eqn:C2; [left; eexists; split; [reflexivity|apply outcome_le]|].
      right. eexists. split; [reflexivity|]. unfold left_over. cbn [v1 v2 c1 c2]. rewrite C1, C2. cbn. lia.
    + right. eexists. split; [reflexivity|lia].
  - left. eauto.
  - destruct (second_ok p2 t1 F2) as [E2|(t2 & E2 & H2)]; rewrite E2; cbn [orb]; right; eexists; (split; [reflexivity|lia]).
Qed.
Lemma flip_loop_ok m p1 p2 t : fits (57 * 57) p1 -> fits (57 * 57) p2 -> left_over t < m ->
  exists r, r <= 2 /\ forall fuel, m <= fuel -> flip_loop fuel p1 p2 t = Ok r.
Proof.
  intros F1 F2. revert t. induction m as [|m IH]; intros t Hf; [lia|].
  destruct (flip_turn_ok p1 p2 t F1 F2) as [(r & E & Hr)|(t' & E & Hl)].
  - exists r. split; [exact Hr|]. intros [|fuel] K; [lia|]. cbn [flip_loop]. now rewrite E.
  - destruct (IH t') as (r & Hr & E'); [lia|]. exists r. split; [exact Hr|]. intros [|fuel] K; [lia|]. cbn [flip_loop]. rewrite E. apply E'. lia.
Qed.
Lemma deal_left cards : length cards = 32 -> left_over (flip_deal cards) = 30.
Proof.
  intros H. unfold left_over, flip_deal. cbn [v1 v2 c1 c2]. rewrite !sorted_length, !firstn_length, !skipn_length, H. reflexivity.
Qed.
