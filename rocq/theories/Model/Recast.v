(** nevergrad/optimization/recaster.py: optimizers running a library function in a thread. *)
From Coq Require Import Bool List Arith.
From Verif.Model Require Import Prelude.
Import ListNotations.

Inductive msg (P : Type) : Type := MPoint (p : P) | MNone | MExn (e : exn).
Arguments MPoint {P} p.
Arguments MNone {P}.
Arguments MExn {P} e.
(** A call returns, raises, or waits forever. *)
Inductive outcome (A : Type) : Type := Returned (a : A) | Raised (e : exn) | Blocked.
Arguments Returned {A} a.
Arguments Raised {A} e.
Arguments Blocked {A}.

Section Thread.
Context {P L : Type}.
(** The library function as it is seen by the callable it is given: after it received some losses, it calls it with a point (or batch of points),
    returns, or raises. *)
Inductive request : Type := RPoint (p : P) | RDone | RRaise (e : exn).
Variable lib : list L -> request.
(** recaster.py:37-91 [_MessagingThread]: [received] are the losses given to the library so far, [mail] is [messages_ask]. The thread
    always runs as far as it can: when not [ended] it waits for a loss ([messages_tell] is then empty). [gone]: the thread was seen not alive. *)
Record thread : Type := mkthread { received : list L; mail : list (msg P); ended : bool; error : option exn; gone : bool }.
(** recaster.py:61-73 [run] and 75-87 [_fake_callable], from a return of the callable to the next call *)
Definition advance (rs : list L) (box : list (msg P)) : thread :=
  match lib rs with
  | RPoint p => mkthread rs (box ++ [MPoint p]) false None false
  | RDone => mkthread rs (box ++ [MNone]) true None false
  | RRaise e => mkthread rs (box ++ [MExn e]) true (Some e) false
  end.
Definition start : thread := advance [] [].
(** [messages_tell.put]: None stops the thread; after its end nobody reads it *)
Definition give (t : thread) (l : option L) : thread :=
  if ended t then t
  else match l with
       | None => mkthread (received t) (mail t ++ [MExn ValueError]) true None (gone t)
       | Some x => advance (received t ++ [x]) (mail t)
       end.
(** recaster.py:101-102 [is_alive]: a thread is still alive for a while after its last message; [linger] says if it is *)
Definition is_alive (t : thread) (linger : bool) : thread * bool :=
  if ended t then if gone t then (t, false) else if linger then (t, true) else (mkthread (received t) (mail t) (ended t) (error t) true, false)
  else (t, true).
(** The message read by ask if the thread is alive, otherwise None; recaster.py:264-270 and 370-375 *)
Definition next_message (t : thread) (linger : bool) : thread * outcome (option P) :=
  let '(t, alive) := is_alive t linger in
  if alive then
    match mail t with
    | [] => (t, Blocked)
    | m :: rest =>
        let t := mkthread (received t) rest (ended t) (error t) (gone t) in
        match m with MPoint p => (t, Returned (Some p)) | MNone => (t, Returned None) | MExn e => (t, Raised e) end
    end
  else (t, Returned None).
End Thread.
Arguments request P : clear implicits.
Arguments thread P L : clear implicits.

(** recaster.py:206-324 [SequentialRecastOptimizer], with the parts of the base optimizer it relies on. Candidates are numbered; [candidates]
    has their points and their [loss] attribute. [random n]: the n-th point drawn from the generator. *)
Section Sequential.
Context {P L : Type}.
Variable lib : list L -> request P.
Variable random : nat -> P.
(** [norm <= 0.00001] between the data of two candidates *)
Variable near : P -> P -> bool.
Record opt : Type := mkopt { o_thread : option (thread P L); pickling : bool; replay : list nat; candidates : list (P * option L);
  asked : list nat; draws : nat; num_ask : nat; num_tell : nat }.
(** A new optimizer after [enable_pickling] (recaster.py:252-258) *)
Definition new_opt : opt := mkopt None true [] [] [] 0 0 0.
Definition with_thread (o : opt) (t : thread P L) : opt := mkopt (Some t) (pickling o) (replay o) (candidates o) (asked o) (draws o) (num_ask o) (num_tell o).
Definition with_pickling (o : opt) (b : bool) : opt := mkopt (o_thread o) b (replay o) (candidates o) (asked o) (draws o) (num_ask o) (num_tell o).
(** recaster.py:260-280 [_internal_ask_candidate] *)
Definition internal_ask (o : opt) (linger : bool) : opt * outcome P :=
  let t := match o_thread o with None => start lib | Some t => t end in
  match next_message t linger with
  | (t, Blocked) => (with_thread o t, Blocked)
  | (t, Raised e) => (with_thread o t, Raised e)
  | (t, Returned (Some p)) => (with_thread o t, Returned p)
  | (t, Returned None) =>
      match error t with
      | Some _ => (with_thread o t, Raised RuntimeError)
      | None => (mkopt (Some t) (pickling o) (replay o) (candidates o) (asked o) (S (draws o)) (num_ask o) (num_tell o), Returned (random (draws o)))
      end
  end.
(** recaster.py:282-292 [_internal_tell_candidate]; [l] is what is put in the queue *)
Definition internal_tell (o : opt) (c : nat) (l : option L) (linger : bool) : opt * outcome unit :=
  match o_thread o with
  | None => (o, Raised AssertionError)
  | Some t =>
      let '(t, alive) := is_alive t linger in
      if negb alive then match error t with Some _ => (with_thread o t, Raised RuntimeError) | None => (with_thread o t, Returned tt) end
      else (mkopt (Some (give lib t l)) (pickling o) (if pickling o then replay o ++ [c] else replay o) (candidates o) (asked o) (draws o) (num_ask o) (num_tell o), Returned tt)
  end.
(** base.py:481-560 [ask], when constraints are satisfied *)
Definition ask (o : opt) (linger : bool) : opt * outcome (nat * P) :=
  match internal_ask o linger with
  | (o, Returned p) =>
      let c := length (candidates o) in
      (mkopt (o_thread o) (pickling o) (replay o) (candidates o ++ [(p, None)]) (asked o ++ [c]) (draws o) (S (num_ask o)) (num_tell o), Returned (c, p))
  | (o, Raised e) => (o, Raised e)
  | (o, Blocked) => (o, Blocked)
  end.
(** base.py:524-533: a candidate of ask that violates the cheap constraints is told to the algorithm with an infinite loss; its [loss]
    attribute is not set *)
Definition refuse (o : opt) (infinite : L) (linger : bool) : opt * outcome unit :=
  match internal_ask o linger with
  | (o, Returned p) =>
      let c := length (candidates o) in
      internal_tell (mkopt (o_thread o) (pickling o) (replay o) (candidates o ++ [(p, None)]) (asked o) (draws o) (num_ask o) (num_tell o)) c (Some infinite) linger
  | (o, Raised e) => (o, Raised e)
  | (o, Blocked) => (o, Blocked)
  end.
Fixpoint set_loss (c : nat) (l : L) (cs : list (P * option L)) : list (P * option L) :=
  match cs, c with [], _ => [] | (p, _) :: cs', O => (p, Some l) :: cs' | x :: cs', S c' => x :: set_loss c' l cs' end.
(** base.py:325-430 [tell]: the attribute is set to the loss, and the algorithm told the loss with the penalty; telling a candidate that is not
    asked raises TellNotAskedNotSupportedError (recaster.py:188-189), here NotImplementedError *)
Definition tell (o : opt) (c : nat) (l penalized : L) (linger : bool) : opt * outcome unit :=
  let o := mkopt (o_thread o) (pickling o) (replay o) (set_loss c l (candidates o)) (asked o) (draws o) (num_ask o) (num_tell o) in
  if existsb (Nat.eqb c) (asked o) then
    match internal_tell o c (Some penalized) linger with
    | (o, Returned _) => (mkopt (o_thread o) (pickling o) (replay o) (candidates o) (filter (fun c' => negb (Nat.eqb c c')) (asked o)) (draws o) (num_ask o) (S (num_tell o)), Returned tt)
    | (o, r) => (o, r)
    end
  else (o, Raised NotImplementedError).
(** recaster.py:294-301 [__getstate__] *)
Definition getstate (o : opt) : result opt :=
  if negb (pickling o) then Err ValueError
  else Ok (mkopt None (pickling o) (replay o) (candidates o) (asked o) (draws o) (num_ask o) (num_tell o)).
(** recaster.py:303-324 [__setstate__]; None: waits forever *)
Fixpoint replay_loop (l : list nat) (o : opt) (linger : bool) : option (result opt) :=
  match l with
  | [] => Some (Ok o)
  | c :: l' =>
      match nth_error (candidates o) c with
      | None => Some (Err IndexError)
      | Some (p, loss) =>
          match internal_ask o linger with
          | (_, Blocked) => None
          | (_, Raised e) => Some (Err e)
          | (o, Returned p') =>
              if negb (near p' p) then Some (Err RuntimeError)
              else match internal_tell o c loss linger with
                   | (_, Blocked) => None
                   | (_, Raised e) => Some (Err e)
                   | (o, Returned _) => replay_loop l' o linger
                   end
          end
      end
  end.
Definition setstate (s : opt) (linger : bool) : option (result opt) :=
  if negb (pickling s) then Some (Err ValueError)
  else match replay_loop (replay s) (with_pickling s false) linger with
       | Some (Ok o) =>
           if Nat.ltb (num_tell o) (num_ask o) then
             match internal_ask o linger with
             | (_, Blocked) => None
             | (_, Raised e) => Some (Err e)
             | (o, Returned _) => Some (Ok (with_pickling o true))
             end
           else Some (Ok (with_pickling o true))
       | r => r
       end.
(** Histories of calls: the output of each *)
Inductive call : Type := Ask (linger : bool) | Tell (c : nat) (l penalized : L) (linger : bool) | Refuse (infinite : L) (linger : bool).
Inductive output : Type := OAsk (r : outcome (nat * P)) | OTell (r : outcome unit) | ORefuse (r : outcome unit).
Definition step (o : opt) (c : call) : opt * output :=
  match c with
  | Ask g => let '(o, r) := ask o g in (o, OAsk r)
  | Tell i l l' g => let '(o, r) := tell o i l l' g in (o, OTell r)
  | Refuse l g => let '(o, r) := refuse o l g in (o, ORefuse r)
  end.
Fixpoint history (o : opt) (cs : list call) : opt * list output :=
  match cs with [] => (o, []) | c :: cs' => let '(o1, x) := step o c in let '(o2, xs) := history o1 cs' in (o2, x :: xs) end.
End Sequential.

(** recaster.py:327-427 [BatchRecastOptimizer]. The thread is given arrays, here lists of losses (None: not told). *)
Section Batch.
Context {P L : Type}.
Variable lib : list (list (option L)) -> request (list P).
Variable random : nat -> P.
Record bopt : Type := mkbopt { b_thread : option (thread (list P) (list (option L))); current_batch : list (nat * P); batch_losses : list (option L);
  tell_counter : nat; batch_size : nat; indices : list (nat * nat); b_asked : list nat; b_draws : nat; next_uid : nat }.
Definition new_bopt : bopt := mkbopt None [] [] 0 0 [] [] 0 0.
(** recaster.py:421-427 [can_ask] *)
Definition can_ask (o : bopt) : bool := match indices o with [] => true | _ => match current_batch o with [] => false | _ => true end end.
(** [list.pop()]: the last element *)
Fixpoint pop {A} (l : list A) : option (A * list A) :=
  match l with
  | [] => None
  | a :: l' => match pop l' with None => Some (a, []) | Some (b, l'') => Some (b, a :: l'') end
  end.
Fixpoint enumerate {A} (i : nat) (l : list A) : list (nat * A) := match l with [] => [] | a :: l' => (i, a) :: enumerate (S i) l' end.
Definition with_bthread (o : bopt) (t : thread (list P) (list (option L))) : bopt :=
  mkbopt (Some t) (current_batch o) (batch_losses o) (tell_counter o) (batch_size o) (indices o) (b_asked o) (b_draws o) (next_uid o).
Definition ask_current (o : bopt) : bopt * outcome (nat * P) :=
  match pop (current_batch o) with
  | None => (o, Raised IndexError)
  | Some ((u, p), rest) =>
      (mkbopt (b_thread o) rest (batch_losses o) (tell_counter o) (batch_size o) (indices o) (b_asked o) (b_draws o) (next_uid o), Returned (u, p))
  end.
(** recaster.py:355-391 [_internal_ask_candidate] *)
Definition internal_bask (o : bopt) (linger : bool) : bopt * outcome (nat * P) :=
  let t := match b_thread o with None => start lib | Some t => t end in
  let o := with_bthread o t in
  match current_batch o with
  | _ :: _ => ask_current o
  | [] =>
      if negb (can_ask o) then (o, Raised TooManyAsk)
      else
        match next_message t linger with
        | (t, Blocked) => (with_bthread o t, Blocked)
        | (t, Raised e) => (with_bthread o t, Raised e)
        | (t, Returned None) =>
            match error t with
            | Some _ => (with_bthread o t, Raised RuntimeError)
            | None =>
                let u := next_uid o in
                (mkbopt (Some t) [] (batch_losses o) (tell_counter o) (batch_size o) (indices o) (b_asked o) (S (b_draws o)) (S u),
                 Returned (u, random (b_draws o)))
            end
        | (t, Returned (Some points)) =>
            let batch := enumerate (next_uid o) points in
            ask_current (mkbopt (Some t) batch (repeat None (length points)) (tell_counter o) (length points)
                           (map (fun iu => (fst (snd iu), fst iu)) (enumerate 0 batch)) (b_asked o) (b_draws o) (next_uid o + length points))
        end
  end.
(** base.py:481-560 [ask], when constraints are satisfied *)
Definition bask (o : bopt) (linger : bool) : bopt * outcome (nat * P) :=
  match internal_bask o linger with
  | (o, Returned (u, p)) =>
      (mkbopt (b_thread o) (current_batch o) (batch_losses o) (tell_counter o) (batch_size o) (indices o) (b_asked o ++ [u]) (b_draws o) (next_uid o), Returned (u, p))
  | r => r
  end.
Fixpoint set_nth {A} (i : nat) (a : A) (l : list A) : list A :=
  match l, i with [], _ => [] | _ :: l', O => a :: l' | x :: l', S i' => x :: set_nth i' a l' end.
(** recaster.py:393-408 [_internal_tell_candidate] *)
Definition internal_btell (o : bopt) (u : nat) (l : L) (linger : bool) : bopt * outcome unit :=
  match b_thread o with
  | None => (o, Raised AssertionError)
  | Some t =>
      let '(t, alive) := is_alive t linger in
      let o := with_bthread o t in
      if negb alive then match error t with Some _ => (o, Raised RuntimeError) | None => (o, Returned tt) end
      else
        match dget u (indices o) with
        | None => (o, Raised KeyError)
        | Some i =>
            if negb (Nat.ltb i (length (batch_losses o))) then (o, Raised IndexError)
            else
              let losses := set_nth i (Some l) (batch_losses o) in
              let n := S (tell_counter o) in
              if Nat.eqb n (batch_size o)
              then (mkbopt (Some (give lib t (Some losses))) (current_batch o) [] 0 (batch_size o) (ddel u (indices o)) (b_asked o) (b_draws o) (next_uid o), Returned tt)
              else (mkbopt (Some t) (current_batch o) losses n (batch_size o) (ddel u (indices o)) (b_asked o) (b_draws o) (next_uid o), Returned tt)
        end
  end.
(** base.py:325-430 [tell] *)
Definition btell (o : bopt) (u : nat) (l : L) (linger : bool) : bopt * outcome unit :=
  if existsb (Nat.eqb u) (b_asked o) then
    match internal_btell o u l linger with
    | (o, Returned _) => (mkbopt (b_thread o) (current_batch o) (batch_losses o) (tell_counter o) (batch_size o) (indices o) (filter (fun v => negb (Nat.eqb u v)) (b_asked o)) (b_draws o) (next_uid o), Returned tt)
    | (o, r) => (o, r)
    end
  else (o, Raised NotImplementedError).
(** [BRefuse]: base.py:524-533, a candidate violating the cheap constraints; a parallel optimizer is not told about it unless
    [_penalize_cheap_violations] (False for these optimizers), and it is dropped *)
Inductive bcall : Type := BAsk (linger : bool) | BRefuse (linger : bool) | BTell (u : nat) (l : L) (linger : bool).
Inductive boutput : Type := BOAsk (r : outcome (nat * P)) | BORefuse (r : outcome (nat * P)) | BOTell (u : nat) (l : L) (r : outcome unit).
Definition bstep (o : bopt) (c : bcall) : bopt * boutput :=
  match c with
  | BAsk g => let '(o, r) := bask o g in (o, BOAsk r)
  | BRefuse g => let '(o, r) := internal_bask o g in (o, BORefuse r)
  | BTell u l g => let '(o, r) := btell o u l g in (o, BOTell u l r)
  end.
Fixpoint bhistory (o : bopt) (cs : list bcall) : bopt * list boutput :=
  match cs with [] => (o, []) | c :: cs' => let '(o1, x) := bstep o c in let '(o2, xs) := bhistory o1 cs' in (o2, x :: xs) end.
End Batch.
