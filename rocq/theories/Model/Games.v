(** The games of nevergrad/functions/games/game.py: war and batawaf, guess who, flip, and the loss that
    [Game] gives to a pair of policies. Cards are natural numbers, the entries of policies are rationals,
    random draws are arguments. A game returns 1 or 2, the winner, or 0 for a draw. *)
From Coq Require Import ZArith QArith List Bool Lia.
From Verif.Model Require Import Prelude.
Import ListNotations.
Open Scope nat_scope.

(** [sorted] on integers *)
Fixpoint insert (x : nat) (l : list nat) : list nat :=
  match l with [] => [x] | y :: l' => if x <=? y then x :: l else y :: insert x l' end.
Definition sorted (l : list nat) : list nat := fold_right insert [] l.
(** [sorted(l, reverse=True)] *)
Definition sorted_down (l : list nat) : list nat := rev (sorted l).
Definition policy : Type := list Q.

Section War.
(** [state.shuffle(cards)] with a generator seeded by an entry of the policy *)
Variable shuffle : Q -> list nat -> list nat.
(** game.py:335-338, :396-399: number of values of the table for the number of cards of the stack, and for the
    highest card: (26, 13) for war and (18, 6) for batawaf *)
Variable height width : nat.

(** game.py:385-404 [war_decide] *)
Definition war_decide (p : option policy) (num_cards : nat) (stack : list nat) : result (list nat) :=
  let cards := sorted_down stack in
  match p with
  | None => Ok cards
  | Some p =>
      if Nat.odd (length cards) then Err AssertionError
      else match cards with
           | [] => Err IndexError
           | c :: _ =>
               match nth_error p (Nat.min num_cards 9 * height * width + length cards / 2 * width + c) with
               | None => Err IndexError
               | Some seed => if Qeq_bool seed 0 then Ok cards else Ok (shuffle seed cards)
               end
           end
  end.

(** The hands of the two players and the cards on the table. *)
Record table : Type := { hand1 : list nat; hand2 : list nat; stack : list nat }.
Inductive progress : Type := Goes_on (t : table) | Over (winner : nat) | Raises (e : exn).
(** game.py:350-382: one turn of the loop of [war_play_game] *)
Definition war_turn (p1 p2 : option policy) (t : table) : progress :=
  match hand1 t, hand2 t with
  | [], [] => Over 0
  | [], _ => Over 2
  | _, [] => Over 1
  | card1 :: cards1, card2 :: cards2 =>
      let s := stack t ++ [card1; card2] in
      if card2 <? card1 then
        match war_decide p1 (length cards1) s with
        | Ok won => Goes_on {| hand1 := cards1 ++ won; hand2 := cards2; stack := [] |}
        | Err e => Raises e
        end
      else if card1 <? card2 then
        match war_decide p2 (length cards2) s with
        | Ok won => Goes_on {| hand1 := cards1; hand2 := cards2 ++ won; stack := [] |}
        | Err e => Raises e
        end
      else if (length cards1 <? 2) || (length cards2 <? 2) then
        Over (if length cards2 <? length cards1 then 1 else if length cards1 <? length cards2 then 2 else 0)
      else match cards1, cards2 with
           | x1 :: cards1', x2 :: cards2' => Goes_on {| hand1 := cards1'; hand2 := cards2'; stack := s ++ [x1; x2] |}
           | _, _ => Raises IndexError
           end
  end.
(** game.py:349, :383: the loop; [turns] is 500 *)
Fixpoint war_loop (turns : nat) (p1 p2 : option policy) (t : table) : result nat :=
  match turns with
  | 0 => Ok 0
  | S turns =>
      match war_turn p1 p2 t with
      | Goes_on t' => war_loop turns p1 p2 t'
      | Over w => Ok w
      | Raises e => Err e
      end
  end.
(** game.py:332-383 [war_play_game]: [cards] is the shuffled pack *)
Definition war_play_game (p1 p2 : option policy) (cards : list nat) : result nat :=
  match p1, p2 with
  | None, None => Ok (10 * height * width)
  | _, _ =>
      let half := length cards / 2 in
      war_loop 500 p1 p2 {| hand1 := firstn half cards; hand2 := skipn half cards; stack := [] |}
  end.
End War.
(** game.py:340: the packs *)
Definition war_pack : list nat := map (fun i => i / 4) (seq 0 52).
Definition batawaf_pack : list nat := map (fun i => i / 6) (seq 0 36).

(** game.py:43-61 [guesswho_play_noturn]; [int] of a number that is not finite is not modelled. A policy
    that is too short raises, which gives the default choice. *)
Definition qint (x : Q) : Z := Z.quot (Qnum x) (Z.pos (Qden x)).
Definition guesswho_choice (p : option policy) (mine his : Z) : Z :=
  let baseline := (mine / 2)%Z in
  match p with
  | Some (a :: b :: c :: d :: _) =>
      let diff := inject_Z (mine - his) in
      let late := inject_Z (Z.max 0 (mine - his)) in
      qint ((1 # 2) + inject_Z baseline + a * diff + b * late + c * late * diff / inject_Z (1 + mine) + d * late * diff / inject_Z (1 + his))%Q
  | _ => baseline
  end.
(** game.py:63-71 [guesswho_play]: [r] is [np.random.randint(mine)] *)
Definition guesswho_play (p : option policy) (mine his r : Z) : Z :=
  let choice := Z.max 1 (Z.min (guesswho_choice p mine his) (mine - 1)) in
  if (r <=? choice)%Z then choice else (mine - choice)%Z.
(** game.py:73-87 [guesswho_play_game]: [draw n k] is the [n]-th draw, below [k]; [first] is the outcome
    of the draw of the player who begins *)
Fixpoint guesswho_loop (fuel : nat) (p1 p2 : option policy) (draw : nat -> Z -> Z) (n : nat) (d1 d2 : Z) : result nat :=
  match fuel with
  | 0 => Err OutOfFuel
  | S fuel =>
      let d2 := guesswho_play p2 d2 d1 (draw n d2) in
      if (Z.min d1 d2 <=? 1)%Z then Ok 2
      else let d1 := guesswho_play p1 d1 d2 (draw (S n) d1) in
           if (Z.min d1 d2 <=? 1)%Z then Ok 1 else guesswho_loop fuel p1 p2 draw (S (S n)) d1 d2
  end.
Definition guesswho_play_game (p1 p2 : option policy) (init : Z) (first : bool) (draw : nat -> Z -> Z) (fuel : nat) : result nat :=
  match p1, p2 with
  | None, None => Ok 4
  | _, _ =>
      if first then
        let d1 := guesswho_play p1 init init (draw 0 init) in
        if (Z.min d1 init <=? 1)%Z then Ok 1 else guesswho_loop fuel p1 p2 draw 1 d1 init
      else guesswho_loop fuel p1 p2 draw 0 init init
  end.

(** game.py:97-98 [flip_match]: [%] of Python has the sign of the modulus *)
Definition flip_match (a b : nat) : bool := (Z.abs ((Z.of_nat a - Z.of_nat b) mod 13) <=? 1)%Z.
(** game.py:202-219 [flip_value]: the state of 57 integers and the quadratic form of the policy *)
Definition flip_state (v1 v2 : list nat) (l1 l2 : nat) (s0 s1 : nat) : list Z :=
  let count v s i := Z.of_nat (length (filter (fun c => ((Z.of_nat c - Z.of_nat s) mod 13 =? Z.of_nat i)%Z) v)) in
  [Z.of_nat (length v1); Z.of_nat (length v2); Z.of_nat l1; Z.of_nat l2; (Z.of_nat s1 - Z.of_nat s0 mod 13)%Z] ++
  flat_map (fun i => [count v1 s0 i; count v1 s1 i; count v2 s0 i; count v2 s1 i]) (seq 0 13).
Fixpoint sum_results (l : list (result Q)) (acc : Q) : result Q :=
  match l with [] => Ok acc | Ok x :: l' => sum_results l' (acc + x)%Q | Err e :: _ => Err e end.
Definition flip_value (p : option policy) (v1 v2 : list nat) (l1 l2 : nat) (s0 s1 : nat) : result Q :=
  match p with
  | None => Ok (inject_Z (Z.of_nat l1))
  | Some p =>
      let st := flip_state v1 v2 l1 l2 s0 s1 in
      let term i j :=
        match nth_error p (i * 57 + j), nth_error st i, nth_error st j with
        | Some w, Some a, Some b => Ok (w * inject_Z a * inject_Z b)%Q
        | _, _, _ => Err IndexError
        end in
      sum_results (flat_map (fun i => map (term i) (seq 0 57)) (seq 0 57)) ((1 # 100) * inject_Z (Z.of_nat l1))%Q
  end.
Definition remove_at {A} (i : nat) (l : list A) : list A := firstn i l ++ skipn (S i) l.
Definition qless (x y : Q) : bool := negb (Qle_bool y x).
(** the two cards on the table, smallest first after [sorted] *)
Definition pair_sorted (a b : nat) : nat * nat := if a <=? b then (a, b) else (b, a).
(** game.py:121-148 and :157-181: the search for a move over the cards and the two locations. [best] is
    the value to beat, [found] the cards kept and the stack of the best move. *)
Definition flip_search (p : option policy) (mine his : list nat) (l1 l2 : nat) (s0 s1 : nat) : result (option (list nat * (nat * nat))) :=
  let tries := flat_map (fun i => [(i, false); (i, true)]) (seq 0 (length mine)) in
  let attempt (acc : result (Q * option (list nat * (nat * nat)))) (t : nat * bool) :=
    bind acc (fun bf =>
      match nth_error mine (fst t) with
      | None => Err IndexError
      | Some c =>
          let (on, other) := if snd t then (s1, s0) else (s0, s1) in
          if flip_match c on then
            let kept := remove_at (fst t) mine in
            let st := pair_sorted c other in
            bind (flip_value p kept his (l1 - 1) l2 (fst st) (snd st)) (fun v =>
              if qless v (fst bf) then Ok (v, Some (kept, st)) else Ok bf)
          else Ok bf
      end) in
  bind (flip_value p mine his l1 l2 s0 s1) (fun start =>
    bind (fold_left attempt tries (Ok (start, None))) (fun bf => Ok (snd bf))).
(** The visible cards of the two players, the cards they still have to draw, and the two cards on the table. *)
Record flip_table : Type := { v1 : list nat; v2 : list nat; c1 : list nat; c2 : list nat; s0 : nat; s1 : nat }.
(** the drawn card joins the visible ones *)
Definition drawn (cards : list nat) : list nat := match cards with [] => [] | c :: _ => [c] end.
Inductive half_turn : Type := Played (moved : bool) (t : flip_table) | Won (winner : nat) | Fails (e : exn).
(** game.py:121-156: player 1 *)
Definition flip_first (p1 : option policy) (t : flip_table) : half_turn :=
  match flip_search p1 (v1 t) (v2 t) (length (v1 t) + length (c1 t)) (length (v2 t) + length (c2 t)) (s0 t) (s1 t) with
  | Err e => Fails e
  | Ok None => Played false t
  | Ok (Some (kept, st)) =>
      let v := sorted (kept ++ drawn (c1 t)) in
      match v with
      | [] => Won 1
      | _ => Played true {| v1 := v; v2 := v2 t; c1 := tl (c1 t); c2 := c2 t; s0 := fst st; s1 := snd st |}
      end
  end.
(** game.py:157-189: player 2. The test that ends the game is nested under [if cards2], where the visible
    cards are never empty. *)
Definition flip_second (p2 : option policy) (t : flip_table) : half_turn :=
  match flip_search p2 (v2 t) (v1 t) (length (c2 t) + length (v2 t)) (length (c1 t) + length (v1 t)) (s0 t) (s1 t) with
  | Err e => Fails e
  | Ok None => Played false t
  | Ok (Some (kept, st)) =>
      let v := sorted (kept ++ drawn (c2 t)) in
      let t' := {| v1 := v1 t; v2 := v; c1 := c1 t; c2 := tl (c2 t); s0 := fst st; s1 := snd st |} in
      match c2 t, v with
      | _ :: _, [] => Won 2
      | _, _ => Played true t'
      end
  end.
(** game.py:112-194: one turn of the loop of [flip_play_game_nosym], and :200 *)
Inductive flip_progress : Type := Flip_on (t : flip_table) | Flip_over (winner : nat) | Flip_raises (e : exn).
Definition flip_turn (p1 p2 : option policy) (t : flip_table) : flip_progress :=
  match flip_first p1 t with
  | Fails e => Flip_raises e
  | Won w => Flip_over w
  | Played m1 t1 =>
      match flip_second p2 t1 with
      | Fails e => Flip_raises e
      | Won w => Flip_over w
      | Played m2 t2 =>
          if m1 || m2 then Flip_on t2
          else match c1 t2, c2 t2 with
               | a :: c1', b :: c2' => Flip_on {| v1 := v1 t2; v2 := v2 t2; c1 := c1'; c2 := c2'; s0 := a; s1 := b |}
               | _, _ => Flip_over (if length (v1 t2) <? length (v2 t2) then 1 else if length (v2 t2) <? length (v1 t2) then 2 else 0)
               end
      end
  end.
Fixpoint flip_loop (fuel : nat) (p1 p2 : option policy) (t : flip_table) : result nat :=
  match fuel with
  | 0 => Err OutOfFuel
  | S fuel => match flip_turn p1 p2 t with Flip_on t' => flip_loop fuel p1 p2 t' | Flip_over w => Ok w | Flip_raises e => Err e end
  end.
(** game.py:103-110: the pack and how it is dealt; [cards] is the shuffled pack *)
Definition flip_pack : list nat := map (fun i => i / 4) (seq 0 32).
Definition flip_deal (cards : list nat) : flip_table :=
  let st := sorted (firstn 2 cards) in
  {| v1 := sorted (firstn 5 (skipn 2 cards)); v2 := sorted (firstn 5 (skipn 7 cards));
     c1 := firstn 10 (skipn 12 cards); c2 := firstn 10 (skipn 22 cards); s0 := nth 0 st 0; s1 := nth 1 st 0 |}.
Definition flip_nosym (fuel : nat) (p1 p2 : option policy) (cards : list nat) : result nat := flip_loop fuel p1 p2 (flip_deal cards).
(** game.py:89-95 [flip_play_game]: [swap] is the outcome of the draw *)
Definition flip_play_game (fuel : nat) (p1 p2 : option policy) (swap : bool) (cards : list nat) : result nat :=
  match p1, p2 with
  | None, None => Ok (57 * 57)
  | _, _ =>
      if swap then bind (flip_nosym fuel p2 p1 cards) (fun r => Ok (match r with 2 => 1 | 1 => 2 | _ => 0 end))
      else flip_nosym fuel p1 p2 cards
  end.

(** game.py:425-436 [Game._simulate_game]: [play policy1 policy2] is a game, [random] the policy of the opponent. The first
    half of the vector plays first, the second half plays second. *)
Definition game_loss (play1 play2 : option policy -> option policy -> result nat) (x random1 random2 : policy) : result Q :=
  let half := length x / 2 in
  bind (play1 (Some (firstn half x)) (Some random1)) (fun r1 =>
  bind (play2 (Some random2) (Some (skipn half x))) (fun r2 =>
    let a := match r1 with 1 => 0%Q | 0 => 1 # 2 | _ => 1%Q end in
    let b := match r2 with 2 => 0%Q | 0 => 1 # 2 | _ => 1%Q end in
    Ok ((a + b) / 2)%Q)).
