(** C88: the games of the benchmarks. *)
From Coq Require Import ZArith QArith List Bool Lia Lqa Permutation.
From Verif.Model Require Import Prelude Games.
From Verif.Spec Require Import Games.
From Verif.Proofs Require Import Games.
Import ListNotations.
Open Scope nat_scope.

(** ** War and batawaf *)
(** The two games: the parameters of the table of the policy and the pack. *)
Definition cardgame (h w : nat) (pack : list nat) : Prop := (h = 26 /\ w = 13 /\ pack = war_pack) \/ (h = 18 /\ w = 6 /\ pack = batawaf_pack).
Lemma cardgame_facts h w pack : cardgame h w pack -> length pack = 2 * h /\ 0 < w /\ Forall (fun c => c < w) pack /\ h <> 0.
Proof.
  intros [(-> & -> & ->)|(-> & -> & ->)]; (split; [reflexivity|split; [lia|split; [|lia]]]); apply Forall_forall; intros c Hc; apply in_map_iff in Hc;
  destruct Hc as (i & <- & Hi); apply in_seq in Hi; apply Nat.div_lt_upper_bound; lia.
Qed.
Lemma start_inv h w pack cards : cardgame h w pack -> Permutation pack cards ->
  war_inv h w {| hand1 := firstn (length cards / 2) cards; hand2 := skipn (length cards / 2) cards; stack := [] |}.
Proof.
  intros Hg P. destruct (cardgame_facts h w pack Hg) as (Hl & Hw & Hc & _). unfold war_inv, all_cards. cbn [hand1 hand2 stack]. rewrite app_nil_r, firstn_skipn.
  split; [rewrite <- Hl; apply Permutation_length; now symmetry|]. split; [now rewrite <- P|reflexivity].
Qed.

(** Whatever the shuffled pack and the policies of the right size, the game ends with a winner or a draw: the policy is
    never read out of its bounds. *)
Theorem C88_war_ends : forall shuffle h w pack p1 p2 cards, cardgame h w pack -> shuffles shuffle -> Permutation pack cards ->
  fits (10 * h * w) p1 -> fits (10 * h * w) p2 -> (p1 <> None \/ p2 <> None) ->
  exists r, war_play_game shuffle h w p1 p2 cards = Ok r /\ r <= 2.
Proof.
  intros shuffle h w pack p1 p2 cards Hg Hsh P F1 F2 Hn. destruct (cardgame_facts h w pack Hg) as (_ & Hw & _).
  destruct (loop_ok shuffle h w Hsh Hw 500 p1 p2 _ F1 F2 (start_inv h w pack cards Hg P)) as (r & E & Hr). exists r. split; [|exact Hr].
  unfold war_play_game. destruct p1, p2; try exact E. destruct Hn; congruence.
Qed.
Print Assumptions C88_war_ends.
(** Without policies the call gives the size of the policies. *)
Theorem C88_war_size : forall shuffle h w cards, war_play_game shuffle h w None None cards = Ok (10 * h * w).
Proof. reflexivity. Qed.
Print Assumptions C88_war_size.
(** No card appears or disappears: along the game the two hands and the table make up the pack. *)
Theorem C88_war_cards : forall shuffle h w pack p1 p2 cards half t, cardgame h w pack -> shuffles shuffle -> Permutation pack cards ->
  fits (10 * h * w) p1 -> fits (10 * h * w) p2 -> half = length cards / 2 ->
  war_reaches shuffle h w p1 p2 {| hand1 := firstn half cards; hand2 := skipn half cards; stack := [] |} t ->
  Permutation pack (hand1 t ++ hand2 t ++ stack t) /\ Nat.even (length (stack t)) = true.
Proof.
  intros shuffle h w pack p1 p2 cards half t Hg Hsh P F1 F2 -> R. destruct (cardgame_facts h w pack Hg) as (_ & Hw & _).
  destruct (reach_cards shuffle h w Hsh Hw p1 p2 _ t F1 F2 (start_inv h w pack cards Hg P) R) as (Q & _ & _ & He).
  split; [|exact He]. rewrite P. unfold all_cards in Q. cbn [hand1 hand2 stack] in Q. rewrite app_nil_r, firstn_skipn in Q. exact Q.
Qed.
Print Assumptions C88_war_cards.
(** The game stops in favour of the player who holds more cards. *)
Theorem C88_war_winner : forall shuffle h w p1 p2 t r, war_turn shuffle h w p1 p2 t = Over r ->
  (length (hand2 t) < length (hand1 t) /\ r = 1) \/ (length (hand1 t) < length (hand2 t) /\ r = 2) \/ (length (hand1 t) = length (hand2 t) /\ r = 0).
Proof.
  intros shuffle h w p1 p2 t r. unfold war_turn. destruct (hand1 t) as [|x1 h1], (hand2 t) as [|x2 h2]; try (intros E; injection E as <-; cbn; lia).
  destruct (x2 <? x1). { destruct (war_decide _ _ _ p1 _ _); discriminate. }
  destruct (x1 <? x2). { destruct (war_decide _ _ _ p2 _ _); discriminate. }
  destruct (_ || _).
  - intros E. injection E as <-. cbn [length]. destruct (Nat.ltb_spec (length h2) (length h1)); [lia|]. destruct (Nat.ltb_spec (length h1) (length h2)); lia.
  - destruct h1; [discriminate|]. destruct h2; discriminate.
Qed.
Print Assumptions C88_war_winner.
(** A player who takes the cards of the table had the highest card; the cards taken go under the own hand. *)
Theorem C88_war_takes : forall shuffle h w p1 p2 t t', shuffles shuffle -> war_turn shuffle h w p1 p2 t = Goes_on t' ->
  exists x1 l1 x2 l2, hand1 t = x1 :: l1 /\ hand2 t = x2 :: l2 /\
    ((x2 < x1 /\ hand2 t' = l2 /\ stack t' = [] /\ exists won, hand1 t' = l1 ++ won /\ Permutation (stack t ++ [x1; x2]) won) \/
     (x1 < x2 /\ hand1 t' = l1 /\ stack t' = [] /\ exists won, hand2 t' = l2 ++ won /\ Permutation (stack t ++ [x1; x2]) won) \/
     (x1 = x2 /\ exists y1 y2, l1 = y1 :: hand1 t' /\ l2 = y2 :: hand2 t' /\ hand1 t' <> [] /\ hand2 t' <> [] /\ stack t' = stack t ++ [x1; x2; y1; y2])).
Proof.
  intros shuffle h w p1 p2 t t' Hsh. unfold war_turn. destruct (hand1 t) as [|x1 l1], (hand2 t) as [|x2 l2]; try discriminate.
  assert (Hd : forall p n s won, war_decide shuffle h w p n s = Ok won -> Permutation s won).
  { intros p n s won. unfold war_decide. pose proof (down_perm s) as P. destruct p as [p|]; [|intros E; now injection E as <-].
    destruct (Nat.odd _); [discriminate|]. destruct (sorted_down s) as [|c l]; [discriminate|]. destruct (nth_error p _) as [seed|]; [|discriminate].
    destruct (Qeq_bool seed 0); intros E; injection E as <-; [exact P|]. rewrite P. apply Hsh. }
  intros E. exists x1, l1, x2, l2. split; [reflexivity|split; [reflexivity|]].
  destruct (Nat.ltb_spec x2 x1).
  { left. destruct (war_decide shuffle h w p1 (length l1) _) as [won|] eqn:E1; [|discriminate]. injection E as <-. cbn. repeat split; auto. exists won. split; [reflexivity|]. eapply Hd; eassumption. }
  destruct (Nat.ltb_spec x1 x2).
  { right. left. destruct (war_decide shuffle h w p2 (length l2) _) as [won|] eqn:E1; [|discriminate]. injection E as <-. cbn. repeat split; auto. exists won. split; [reflexivity|]. eapply Hd; eassumption. }
  right. right. split; [lia|]. destruct (_ || _) eqn:Eo; [discriminate|]. apply orb_false_iff in Eo. destruct Eo as (O1 & O2). apply Nat.ltb_ge in O1. apply Nat.ltb_ge in O2.
  destruct l1 as [|y1 l1]; [discriminate|]. destruct l2 as [|y2 l2]; [discriminate|]. injection E as <-. exists y1, y2. cbn [hand1 hand2 stack].
  repeat split; try (intros ->; cbn in *; lia). now rewrite <- app_assoc.
Qed.
Print Assumptions C88_war_takes.
(** Neither seat is favoured: exchanging the policies and the hands exchanges the winner. *)
Theorem C88_war_fair : forall shuffle h w p1 p2 a b, length a = length b -> (p1 <> None \/ p2 <> None) ->
  war_play_game shuffle h w p2 p1 (b ++ a) = match war_play_game shuffle h w p1 p2 (a ++ b) with Ok r => Ok (other_winner r) | Err e => Err e end.
Proof.
  intros shuffle h w p1 p2 a b Hl Hn.
  assert (Hh : length a = length (a ++ b) / 2) by (rewrite app_length, <- Hl; replace (length a + length a) with (length a * 2) by lia; symmetry; now apply Nat.div_mul).
  assert (Hh' : length b = length (b ++ a) / 2) by (rewrite app_length, Hl; replace (length b + length b) with (length b * 2) by lia; symmetry; now apply Nat.div_mul).
  assert (E : forall q1 q2 x y, length x = length (x ++ y) / 2 -> (q1 <> None \/ q2 <> None) ->
    war_play_game shuffle h w q1 q2 (x ++ y) = war_loop shuffle h w 500 q1 q2 {| hand1 := x; hand2 := y; stack := [] |}).
  { intros q1 q2 x y Hx Hq. unfold war_play_game. rewrite <- Hx, firstn_app, skipn_app, Nat.sub_diag, firstn_all, skipn_all. cbn [firstn skipn app]. rewrite app_nil_r.
    destruct q1, q2; try reflexivity. destruct Hq; congruence. }
  rewrite (E p1 p2 a b Hh Hn), (E p2 p1 b a Hh') by tauto. apply loop_mirror. split; [reflexivity|split; [reflexivity|constructor]].
Qed.
Print Assumptions C88_war_fair.
Lemma entries_differ h w a b c a' b' c' : 1 <= b <= h -> 1 <= b' <= h -> c < w -> c' < w ->
  a * h * w + b * w + c = a' * h * w + b' * w + c' -> a = a' /\ b = b' /\ c = c'.
Proof.
  intros Hb Hb' Hc Hc' E.
  assert (E1 : (a * h + b) * w + c = (a' * h + b') * w + c') by lia.
  assert (c = c'). { rewrite <- (Nat.mod_small c w Hc), <- (Nat.mod_small c' w Hc'). rewrite <- (Nat.mod_add c (a * h + b) w), <- (Nat.mod_add c' (a' * h + b') w) by lia. f_equal. lia. }
  subst c'. assert (E2 : a * h + b = a' * h + b') by nia.
  assert (E3 : a * h + (b - 1) = a' * h + (b' - 1)) by lia. 
  assert (b - 1 = b' - 1). { rewrite <- (Nat.mod_small (b - 1) h), <- (Nat.mod_small (b' - 1) h) by lia. rewrite <- (Nat.mod_add (b - 1) a h), <- (Nat.mod_add (b' - 1) a' h) by lia. f_equal. lia. }
  assert (b = b') by lia. subst b'. split; [nia|auto].
Qed.
(** A policy can react independently to two situations that differ by the number of cards in hand (up to 9), on the
    table, or by the highest card of the table: some vector of the right size orders the cards won by any two given seeds. *)
Theorem C88_war_expressive : forall shuffle h w n s n' s' q q', 0 < w -> ~ (q == 0)%Q -> ~ (q' == 0)%Q ->
  (forall m l, (m, l) = (n, s) \/ (m, l) = (n', s') -> l <> [] /\ Nat.even (length l) = true /\ length l + m <= 2 * h /\ Forall (fun c => c < w) l) ->
  (Nat.min n 9, length s, hd 0 (sorted_down s)) <> (Nat.min n' 9, length s', hd 0 (sorted_down s')) ->
  exists p, length p = 10 * h * w /\ war_decide shuffle h w (Some p) n s = Ok (shuffle q (sorted_down s)) /\
            war_decide shuffle h w (Some p) n' s' = Ok (shuffle q' (sorted_down s')).
Proof.
  intros shuffle h w n s n' s' q q' Hw Hq Hq' Hs Hne. pose (place m l := Nat.min m 9 * h * w + length l / 2 * w + hd 0 (sorted_down l)).
  pose (p := map (fun i => if i =? place n s then q else if i =? place n' s' then q' else 0%Q) (seq 0 (10 * h * w))).
  assert (Hp : forall i, i < 10 * h * w -> nth_error p i = Some (if i =? place n s then q else if i =? place n' s' then q' else 0%Q)).
  { intros i Hi. unfold p. rewrite nth_error_map. rewrite (nth_error_nth' _ 0) by (now rewrite seq_length). cbn. now rewrite seq_nth. }
  assert (Hb : forall m l, (m, l) = (n, s) \/ (m, l) = (n', s') -> place m l < 10 * h * w /\ 1 <= length l / 2 <= h /\ hd 0 (sorted_down l) < w /\ length l = 2 * (length l / 2)).
  { intros m l K. destruct (Hs m l K) as (H1 & H2 & H3 & H4). apply place_bound; assumption. }
  assert (Hd : forall m l seed, (m, l) = (n, s) \/ (m, l) = (n', s') -> nth_error p (place m l) = Some seed -> ~ (seed == 0)%Q -> war_decide shuffle h w (Some p) m l = Ok (shuffle seed (sorted_down l))).
  { intros m l seed K E Hseed. destruct (Hs m l K) as (H1 & H2 & H3 & H4). unfold war_decide. rewrite <- Nat.negb_even, down_length, H2. cbn [negb]. unfold place in E.
    destruct (sorted_down l) as [|c r] eqn:Ed; [pose proof (down_perm l) as P; rewrite Ed in P; apply Permutation_sym, Permutation_nil in P; contradiction|].
    cbn [hd] in E. rewrite E. destruct (Qeq_bool seed 0) eqn:Eq; [|reflexivity]. now apply Qeq_bool_iff in Eq. }
  exists p. split; [unfold p; now rewrite map_length, seq_length|].
  destruct (Hb n s (or_introl eq_refl)) as (B1 & B2 & B3 & B4). destruct (Hb n' s' (or_intror eq_refl)) as (B1' & B2' & B3' & B4').
  assert (Hpl : place n' s' <> place n s).
  { intros K. unfold place in K. destruct (entries_differ h w _ _ _ _ _ _ B2' B2 B3' B3 K) as (K1 & K2 & K3). apply Hne. rewrite K1, K3, B4, B4', K2. reflexivity. }
  split; apply Hd; auto.
  - rewrite Hp by exact B1. now rewrite Nat.eqb_refl.
  - rewrite Hp by exact B1'. rewrite (proj2 (Nat.eqb_neq _ _) Hpl). now rewrite Nat.eqb_refl.
Qed.
Print Assumptions C88_war_expressive.

Example C88_war_example :
  let zeros := Some (repeat 0%Q (10 * 18 * 6)) in let sh := fun (_ : Q) (l : list nat) => rev l in
  cardgame 18 6 batawaf_pack /\ shuffles sh /\ fits (10 * 18 * 6) zeros /\
  war_play_game sh 18 6 zeros None ([5;5;5;5;5;5;4;4;4;4;4;4;3;3;3;3;3;3] ++ [2;2;2;2;2;2;1;1;1;1;1;1;0;0;0;0;0;0]) = Ok 1 /\
  war_turn sh 18 6 None None {| hand1 := [3; 1; 2]; hand2 := [3; 0; 4; 5]; stack := [1; 1] |} = Goes_on {| hand1 := [2]; hand2 := [4; 5]; stack := [1; 1; 3; 3; 1; 0] |}.
Proof.
  cbv zeta. split; [right; auto|]. split; [intros s l; apply Permutation_rev|]. split; [apply repeat_length|]. split; vm_compute; reflexivity.
Qed.

(** ** Guess who *)
(** The number of cards always decreases and stays positive. *)
Theorem C88_guesswho_progress : forall p mine his r, (2 <= mine)%Z -> (1 <= guesswho_play p mine his r < mine)%Z.
Proof. intros p mine his r H. pose proof (guess_range p mine his r H). lia. Qed.
Print Assumptions C88_guesswho_progress.
(** Whatever the policies, the draws and the player who begins, the game ends and somebody wins. *)
Theorem C88_guesswho_ends : forall p1 p2 init first draw, (2 <= init)%Z -> (p1 <> None \/ p2 <> None) ->
  exists r, (r = 1 \/ r = 2) /\ forall fuel, (2 * init <= Z.of_nat fuel)%Z -> guesswho_play_game p1 p2 init first draw fuel = Ok r.
Proof.
  intros p1 p2 init first draw Hi Hn.
  assert (E : forall fuel, guesswho_play_game p1 p2 init first draw fuel = if first then
        let d1 := guesswho_play p1 init init (draw 0 init) in
        if (Z.min d1 init <=? 1)%Z then Ok 1 else guesswho_loop fuel p1 p2 draw 1 d1 init
      else guesswho_loop fuel p1 p2 draw 0 init init) by (intros fuel; unfold guesswho_play_game; destruct p1, p2; try reflexivity; destruct Hn; congruence).
  destruct first.
  - pose proof (guess_range p1 init init (draw 0 init) Hi) as R. cbv zeta in E. set (d1 := guesswho_play p1 init init (draw 0 init)) in *.
    destruct (Z.leb_spec (Z.min d1 init) 1) as [K|K].
    + exists 1. split; [now left|]. intros fuel _. apply E.
    + destruct (guess_loop (Z.to_nat (2 * init)) p1 p2 draw 1 d1 init) as (r & Hr & El); [lia|lia|lia|]. exists r. split; [exact Hr|]. intros fuel Hf. rewrite E. apply El. lia.
  - destruct (guess_loop (Z.to_nat (2 * init)) p1 p2 draw 0 init init Hi Hi) as (r & Hr & El); [lia|]. exists r. split; [exact Hr|]. intros fuel Hf. rewrite E. apply El. lia.
Qed.
Print Assumptions C88_guesswho_ends.
(** A question about [c] of the [n] cards should be answered yes for [c] of the [n] secrets. The code answers yes for
    [c + 1] of the draws: with an odd number of cards the dichotomic player keeps the smaller part too often. *)
Theorem C88_guesswho_odds_refuted : forall k his, (1 <= k)%Z ->
  let n := (2 * k + 1)%Z in
  (forall r, (0 <= r < n)%Z -> guesswho_play None n his r = k \/ guesswho_play None n his r = (k + 1)%Z) /\
  (forall r, (0 <= r < n)%Z -> (guesswho_play None n his r = k <-> (r < k + 1)%Z)).
Proof.
  intros k his Hk n.
  assert (E : forall r, guesswho_play None n his r = if (r <=? k)%Z then k else (k + 1)%Z).
  { intros r. unfold guesswho_play, guesswho_choice. assert (Hd : (n / 2 = k)%Z) by (subst n; rewrite Z.mul_comm, Z.add_comm, Z.div_add by lia; reflexivity).
    rewrite Hd. replace (Z.max 1 (Z.min k (n - 1))) with k by lia. destruct (r <=? k)%Z; lia. }
  split; intros r Hr; rewrite E; destruct (Z.leb_spec r k); try (split; lia); auto.
Qed.
Print Assumptions C88_guesswho_odds_refuted.
Example C88_guesswho_example :
  guesswho_play_game (Some [0%Q; 1 # 2; 0%Q; 0%Q]) None 24 true (fun _ _ => 0%Z) 48 = Ok 1 /\
  guesswho_play_game (Some [0%Q; 1 # 2; 0%Q; 0%Q]) None 24 false (fun _ _ => 0%Z) 48 = Ok 2 /\
  guesswho_play (Some [0%Q; 1 # 2; 0%Q; 0%Q]) 10 4 3 = 8%Z.
Proof. vm_compute. auto. Qed.

(** ** Flip *)
(** The move played is legal, better than waiting and the best of the legal moves; a player waits only when no legal
    move is better. [value kept st] is the value the policy gives to the position after the move. *)
Theorem C88_flip_move : forall p mine his l1 l2 a0 a1, fits (57 * 57) p ->
  let value := fun kept (st : nat * nat) => flip_value p kept his (l1 - 1) l2 (fst st) (snd st) in
  exists start, flip_value p mine his l1 l2 a0 a1 = Ok start /\
  ((flip_search p mine his l1 l2 a0 a1 = Ok None /\ forall kept st u, legal mine a0 a1 kept st -> value kept st = Ok u -> (start <= u)%Q) \/
   (exists kept st v, flip_search p mine his l1 l2 a0 a1 = Ok (Some (kept, st)) /\ legal mine a0 a1 kept st /\ value kept st = Ok v /\ (v < start)%Q /\
      forall kept' st' u, legal mine a0 a1 kept' st' -> value kept' st' = Ok u -> (v <= u)%Q)).
Proof. intros p mine his l1 l2 a0 a1 Hp. exact (search_spec p mine his l1 l2 a0 a1 Hp). Qed.
Print Assumptions C88_flip_move.
(** Without a policy the player plays whenever a move is legal. *)
Theorem C88_flip_greedy : forall mine his l1 l2 a0 a1, 1 <= l1 ->
  (flip_search None mine his l1 l2 a0 a1 = Ok None <-> forall kept st, ~ legal mine a0 a1 kept st).
Proof.
  intros mine his l1 l2 a0 a1 Hl. destruct (search_spec None mine his l1 l2 a0 a1 I) as (start & Es & [(E & H)|(kept & st & v & E & Hg & _)]).
  - cbn in Es. injection Es as <-. split; [|intros _; exact E]. intros _ kept st Hg. specialize (H kept st _ Hg eq_refl). rewrite <- Zle_Qle in H. lia.
  - split; [congruence|]. intros H. now destruct (H kept st).
Qed.
Print Assumptions C88_flip_greedy.
(** Whatever the pack, the policies and the player who begins, a game of flip ends, in less than 31 turns. *)
Theorem C88_flip_ends : forall p1 p2 swap cards, fits (57 * 57) p1 -> fits (57 * 57) p2 -> (p1 <> None \/ p2 <> None) -> Permutation flip_pack cards ->
  exists r, r <= 2 /\ forall fuel, 31 <= fuel -> flip_play_game fuel p1 p2 swap cards = Ok r.
Proof.
  intros p1 p2 swap cards F1 F2 Hn P. assert (Hc : length cards = 32) by (rewrite <- (Permutation_length P); reflexivity).
  assert (E : forall fuel, flip_play_game fuel p1 p2 swap cards = if swap then bind (flip_nosym fuel p2 p1 cards) (fun r => Ok (match r with 2 => 1 | 1 => 2 | _ => 0 end))
      else flip_nosym fuel p1 p2 cards) by (intros fuel; unfold flip_play_game; destruct p1, p2; try reflexivity; destruct Hn; congruence).
  assert (H : left_over (flip_deal cards) < 31) by (rewrite (deal_left cards Hc); lia). unfold flip_nosym in E. destruct swap.
  - destruct (flip_loop_ok 31 p2 p1 _ F2 F1 H) as (r & Hr & El). exists (match r with 2 => 1 | 1 => 2 | _ => 0 end). split; [destruct r as [|[|[|r]]]; lia|].
    intros fuel Hf. rewrite E, El by exact Hf. reflexivity.
  - destruct (flip_loop_ok 31 p1 p2 _ F1 F2 H) as (r & Hr & El). exists r. split; [exact Hr|]. intros fuel Hf. rewrite E. now apply El.
Qed.
Print Assumptions C88_flip_ends.
(** Cards match when the card played is the same or the next one: the relation is not symmetric, a 4 goes on a 3 but a 3
    does not go on a 4, although the comments of the game and the circular distance suggest both. *)
Theorem C88_flip_match_refuted : forall a, a < 12 -> flip_match (S a) a = true /\ flip_match a (S a) = false /\ flip_match a a = true.
Proof. intros a Ha. do 12 (destruct a as [|a]; [vm_compute; auto|]). lia. Qed.
Print Assumptions C88_flip_match_refuted.
(** The player in the second seat never wins by playing the last card: the test is nested so that it is never true. *)
Theorem C88_flip_second_seat : forall p t r, fits (57 * 57) p -> flip_second p t <> Won r.
Proof. intros p t r Hp E. destruct (second_ok p t Hp) as [K|(t' & K & _)]; congruence. Qed.
Print Assumptions C88_flip_second_seat.
Definition flip_unlucky : list nat := [6;1;2;2;7;1;3;6;3;7;4;3;0;5;6;1;7;0;4;6;7;3;5;5;4;1;4;0;5;2;0;2].
Fixpoint flip_after (n : nat) (p1 p2 : option policy) (t : flip_table) : option flip_table :=
  match n with 0 => Some t | S n => match flip_turn p1 p2 t with Flip_on t' => flip_after n p1 p2 t' | _ => None end end.
Lemma flip_after_reaches n p1 p2 t t' : flip_after n p1 p2 t = Some t' -> flip_reaches p1 p2 t t'.
Proof.
  revert t. induction n as [|n IH]; intros t; cbn; [intros E; injection E as <-; constructor|]. destruct (flip_turn p1 p2 t) eqn:E; [|discriminate|discriminate].
  intros K. econstructor; [exact E|now apply IH].
Qed.
Lemma flip_after_loop n m p1 p2 t t' : flip_after n p1 p2 t = Some t' -> flip_loop (n + m) p1 p2 t = flip_loop m p1 p2 t'.
Proof.
  revert t. induction n as [|n IH]; intros t; cbn [flip_after Nat.add flip_loop]; [intros E; injection E as <-; reflexivity|]. destruct (flip_turn p1 p2 t); [apply IH|discriminate|discriminate].
Qed.
Lemma flip_unlucky_run : let p2 := Some (repeat 0%Q (57 * 57)) in
  match flip_after 15 None p2 (flip_deal flip_unlucky) with
  | Some t => v2 t = [] /\ c2 t = [] /\ v1 t <> [] /\ flip_loop (31 - 15) None p2 t = Ok 1
  | None => False
  end.
Proof. vm_compute. repeat split; discriminate. Qed.
(** So a player can get rid of every card first and lose: here the game goes on and player 1 is declared the winner. *)
Theorem C88_flip_empty_hand_refuted : exists p2 cards t, fits (57 * 57) p2 /\ p2 <> None /\ Permutation flip_pack cards /\
  flip_reaches None p2 (flip_deal cards) t /\ v2 t = [] /\ c2 t = [] /\ v1 t <> [] /\
  flip_play_game 31 None p2 false cards = Ok 1.
Proof.
  assert (Hl : length (repeat 0%Q (57 * 57)) = 57 * 57) by apply repeat_length.
  pose proof flip_unlucky_run as H. cbv zeta in H. set (z := repeat 0%Q (57 * 57)) in *. clearbody z. exists (Some z), flip_unlucky.
  destruct (flip_after 15 None (Some z) (flip_deal flip_unlucky)) as [t|] eqn:E; [|destruct H]. destruct H as (H1 & H2 & H3 & H4).
  exists t. split; [exact Hl|]. split; [discriminate|]. split.
  - transitivity (sorted flip_unlucky); [|apply Permutation_sym, sorted_perm]. replace (sorted flip_unlucky) with flip_pack by (vm_compute; reflexivity). reflexivity.
  - split; [exact (flip_after_reaches _ _ _ _ _ E)|]. repeat split; try assumption. cbn [flip_play_game]. unfold flip_nosym.
    rewrite <- H4. exact (flip_after_loop 15 (31 - 15) None (Some z) _ _ E).
Qed.
Print Assumptions C88_flip_empty_hand_refuted.

(** ** The loss *)
(** The loss of a vector of the right size lies between 0 and 1: 0 when both its halves win and 1 when both lose. The first
    half plays in the first seat, the second half in the second seat. *)
Definition seats_loss (d : nat) (play1 play2 : option policy -> option policy -> result nat) (x random1 random2 : policy) : Prop :=
  exists r1 r2 l, play1 (Some (firstn d x)) (Some random1) = Ok r1 /\ play2 (Some random2) (Some (skipn d x)) = Ok r2 /\
    game_loss play1 play2 x random1 random2 = Ok l /\ (0 <= l <= 1)%Q /\ ((l == 0)%Q <-> r1 = 1 /\ r2 = 2) /\ ((l == 1)%Q <-> r1 = 2 /\ r2 = 1) /\
    (r1 = 0 /\ r2 = 0 -> (l == 1 # 2)%Q).
Lemma loss_spec d play1 play2 x random1 random2 : length x = 2 * d ->
  (exists r, play1 (Some (firstn d x)) (Some random1) = Ok r /\ r <= 2) -> (exists r, play2 (Some random2) (Some (skipn d x)) = Ok r /\ r <= 2) ->
  seats_loss d play1 play2 x random1 random2.
Proof.
  intros Hx (r1 & E1 & H1) (r2 & E2 & H2). unfold seats_loss, game_loss.
  assert (Hh : length x / 2 = d) by (rewrite Hx, Nat.mul_comm; now apply Nat.div_mul). rewrite Hh, E1, E2. cbn [bind].
  exists r1, r2. eexists. split; [reflexivity|split; [reflexivity|split; [reflexivity|]]].
  destruct r1 as [|[|[|r1]]]; try lia; destruct r2 as [|[|[|r2]]]; try lia; (split; [split; vm_compute; discriminate|]);
  (split; [split; [intros K; vm_compute in K; try discriminate K; auto|intros (K1 & K2); try discriminate; vm_compute; reflexivity]|]);
  (split; [split; [intros K; vm_compute in K; try discriminate K; auto|intros (K1 & K2); try discriminate; vm_compute; reflexivity]|]);
  intros (K1 & K2); try discriminate; vm_compute; reflexivity.
Qed.
Theorem C88_war_loss : forall shuffle h w pack cards cards' x random1 random2, cardgame h w pack -> shuffles shuffle ->
  Permutation pack cards -> Permutation pack cards' -> let d := 10 * h * w in length x = 2 * d -> length random1 = d -> length random2 = d ->
  seats_loss d (fun p1 p2 => war_play_game shuffle h w p1 p2 cards) (fun p1 p2 => war_play_game shuffle h w p1 p2 cards') x random1 random2.
Proof.
  intros shuffle h w pack cards cards' x random1 random2 Hg Hsh P P' d Hx H1 H2. apply loss_spec; [exact Hx| |].
  - apply (C88_war_ends shuffle h w pack); try assumption; try (left; discriminate). cbn. rewrite firstn_length. fold d. lia.
  - apply (C88_war_ends shuffle h w pack); try assumption; try (left; discriminate). cbn. rewrite skipn_length. fold d. lia.
Qed.
Print Assumptions C88_war_loss.
Theorem C88_guesswho_loss : forall first draw first' draw' x random1 random2 fuel, length x = 2 * 4 -> 48 <= fuel ->
  seats_loss 4 (fun p1 p2 => guesswho_play_game p1 p2 24 first draw fuel) (fun p1 p2 => guesswho_play_game p1 p2 24 first' draw' fuel) x random1 random2.
Proof.
  intros first draw first' draw' x random1 random2 fuel Hx Hf.
  assert (H : forall p1 p2 f dr, p1 <> None -> exists r, guesswho_play_game p1 p2 24 f dr fuel = Ok r /\ r <= 2).
  { intros p1 p2 f dr Hn. destruct (C88_guesswho_ends p1 p2 24 f dr ltac:(lia) (or_introl Hn)) as (r & Hr & E). exists r. split; [apply E; lia|destruct Hr; lia]. }
  apply loss_spec; [exact Hx| |]; apply H; discriminate.
Qed.
Print Assumptions C88_guesswho_loss.
Theorem C88_flip_loss : forall swap swap' cards cards' x random1 random2 fuel, Permutation flip_pack cards -> Permutation flip_pack cards' ->
  let d := 57 * 57 in length x = 2 * d -> length random1 = d -> length random2 = d -> 31 <= fuel ->
  seats_loss d (fun p1 p2 => flip_play_game fuel p1 p2 swap cards) (fun p1 p2 => flip_play_game fuel p1 p2 swap' cards') x random1 random2.
Proof.
  intros swap swap' cards cards' x random1 random2 fuel P P' d Hx H1 H2 Hf.
  assert (H : forall p1 p2 s c, Permutation flip_pack c -> fits d (Some p1) -> fits d (Some p2) -> exists r, flip_play_game fuel (Some p1) (Some p2) s c = Ok r /\ r <= 2).
  { intros p1 p2 s c Pc F1 F2. destruct (C88_flip_ends (Some p1) (Some p2) s c F1 F2) as (r & Hr & E); [left; discriminate|exact Pc|]. exists r. split; [now apply E|exact Hr]. }
  clearbody d. apply loss_spec; [exact Hx| |]; apply H; try assumption; cbn; rewrite ?firstn_length, ?skipn_length; lia.
Qed.
Print Assumptions C88_flip_loss.
Example C88_loss_example :
  let zero := [0%Q; 0%Q; 0%Q; 0%Q] in
  game_loss (fun p1 p2 => guesswho_play_game p1 p2 24 true (fun _ _ => 0%Z) 48) (fun p1 p2 => guesswho_play_game p1 p2 24 false (fun _ _ => 0%Z) 48) (zero ++ zero) zero zero = Ok (0 # 2)%Q.
Proof. vm_compute. reflexivity. Qed.
