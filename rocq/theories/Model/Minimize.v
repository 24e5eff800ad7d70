(** Model of [Optimizer.minimize] (nevergrad/optimization/base.py:629-741).

    The optimizer (ask, tell), the executor, the jobs, the clock and the user are a
    "world" of arbitrary type, with arbitrary effects: each call gets the current
    world and returns the next one, so that every schedule, every completion order
    and every failure is covered.  What is modelled is the loop itself: the lists of
    running and finished jobs, the budget, the order of the calls.
    Left out: printing, warnings, the timers of [Sleeper] (only its [sleep] call is
    kept), and the final recommendation (made after the loop). *)
From Coq Require Import List Arith ZArith Bool.
From Verif.Model Require Import Prelude.
Import ListNotations.

(** Outcome of [self.ask()]: a candidate ([num_ask] is increased by one, theorem
    [C01_retries_not_counted]), [NevergradEarlyStopping], or another exception (in
    both cases [num_ask] may have been increased by [d]). *)
Inductive ask_out : Type := AskOk (c : nat) | AskStop (d : nat) | AskErr (e : exn) (d : nat).

Definition item : Type := (nat * nat)%type.   (* candidate, job *)

(** What is observable from outside, in order. *)
Inductive mevent (L : Type) : Type :=
| EvAsk (c : nat)
| EvStop                              (* ask raised NevergradEarlyStopping *)
| EvSubmit (x : item)
| EvResult (j : nat) (l : L)          (* job.result() returned l *)
| EvTell (x : item) (l : L).          (* tell(candidate, l) completed, for that job *)
Arguments EvAsk {L}. Arguments EvStop {L}. Arguments EvSubmit {L}.
Arguments EvResult {L}. Arguments EvTell {L}.

Inductive mresult : Type := MDone | MTimeout | MRaised (e : exn) | MFuel.

Section Minimize.
  Variables W L : Type.

  Record wenv : Type := WEnv {
    w_timeout : W -> W * bool;                       (* max_time reached (lines 687-689) *)
    w_sleep : W -> W * result unit;                  (* sleeper.sleep() *)
    w_result : W -> nat -> W * result L;             (* job.result() *)
    w_tell : W -> nat -> L -> W * result unit;       (* tell, with the constraint violations *)
    w_tick : W -> W * result unit;                   (* an interruption between two statements *)
    w_ask : W -> W * ask_out;
    w_submit : W -> nat -> W * result nat;           (* executor.submit *)
    w_done : W -> nat -> W * result bool             (* job.done() *)
  }.
  Variable E : wenv.
  Variable budget : nat.
  Variable num_workers : Z.
  Variable batch_mode : bool.

  Record mst : Type := MSt {
    m_world : W; m_num_ask : nat;
    m_running : list item; m_finished : list item;
    m_remaining : Z; m_first : bool;
    m_log : list (mevent L) }.

  Definition set_world (s : mst) (w : W) : mst :=
    MSt w (m_num_ask s) (m_running s) (m_finished s) (m_remaining s) (m_first s) (m_log s).
  Definition m_event (s : mst) (e : mevent L) : mst :=
    MSt (m_world s) (m_num_ask s) (m_running s) (m_finished s) (m_remaining s) (m_first s) (m_log s ++ [e]).

  (** base.py:698-709 [while self._finished_jobs: ...]; [l] is [_finished_jobs]. *)
  Fixpoint tell_finished (s : mst) (l : list item) : mst * result unit :=
    match l with
    | [] => (s, Ok tt)
    | (c, j) :: l' =>
        let '(w, r) := w_result E (m_world s) j in
        let s := set_world s w in
        match r with
        | Err e => (s, Err e)
        | Ok v =>
            let s := m_event s (EvResult j v) in
            let '(w, r) := w_tell E (m_world s) c v in
            let s := set_world s w in
            match r with
            | Err e => (s, Err e)
            | Ok _ =>
                let s := m_event s (EvTell (c, j) v) in
                let '(w, r) := w_tick E (m_world s) in
                let s := set_world s w in
                match r with
                | Err e => (s, Err e)
                | Ok _ =>
                    (* popleft *)
                    tell_finished (MSt (m_world s) (m_num_ask s) (m_running s) l'
                                     (m_remaining s) (m_first s) (m_log s)) l'
                end
            end
        end
    end.

  (** base.py:721-729 [for _ in range(new_sugg): ...]; the
      [break] ends the loop. *)
  Fixpoint start_jobs (n : nat) (s : mst) : mst * result unit :=
    match n with
    | 0%nat => (s, Ok tt)
    | S n' =>
        let '(w, a) := w_ask E (m_world s) in
        let s := set_world s w in
        match a with
        | AskErr e d =>
            (MSt (m_world s) (m_num_ask s + d) (m_running s) (m_finished s) (m_remaining s) (m_first s) (m_log s), Err e)
        | AskStop d =>
            (MSt (m_world s) (m_num_ask s + d) (m_running s) (m_finished s) 0%Z (m_first s) (m_log s ++ [EvStop]), Ok tt)
        | AskOk c =>
            let s := MSt (m_world s) (m_num_ask s + 1) (m_running s) (m_finished s) (m_remaining s) (m_first s) (m_log s ++ [EvAsk c]) in
            let '(w, r) := w_submit E (m_world s) c in
            let s := set_world s w in
            match r with
            | Err e => (s, Err e)
            | Ok j =>
                let s := m_event s (EvSubmit (c, j)) in
                let '(w, r) := w_tick E (m_world s) in
                let s := set_world s w in
                match r with
                | Err e => (s, Err e)
                | Ok _ =>
                    start_jobs n' (MSt (m_world s) (m_num_ask s) (m_running s ++ [(c, j)]) (m_finished s)
                                     (m_remaining s) (m_first s) (m_log s))
                end
            end
        end
    end.

  (** base.py:736-739: each running job goes to one of the two lists. *)
  Fixpoint split_jobs (w : W) (l : list item) : W * result (list item * list item) :=
    match l with
    | [] => (w, Ok ([], []))
    | x :: l' =>
        let '(w, r) := w_done E w (snd x) in
        match r with
        | Err e => (w, Err e)
        | Ok b =>
            let '(w, r) := split_jobs w l' in
            (w, match r with
                | Err e => Err e
                | Ok (run, fin) => Ok (if b then (run, x :: fin) else (x :: run, fin))
                end)
        end
    end.

  (** base.py:718 number of new suggestions *)
  Definition new_suggestions (s : mst) : Z :=
    Z.max 0 (Z.min (m_remaining s) (num_workers - Z.of_nat (length (m_running s)))).

  (** base.py:693-740: one iteration of the main loop. *)
  Definition iteration (s : mst) : mst * result unit :=
    let '(s, r) :=
      match m_finished s with
      | _ :: _ => tell_finished s (m_finished s)
      | [] => if m_first s then (s, Ok tt)
              else let '(w, r) := w_sleep E (m_world s) in (set_world s w, r)
      end in
    match r with
    | Err e => (s, Err e)
    | Ok _ =>
        let '(s, r) :=
          if negb batch_mode || match m_running s with [] => true | _ => false end
          then start_jobs (Z.to_nat (new_suggestions s)) s
          else (s, Ok tt) in
        match r with
        | Err e => (s, Err e)
        | Ok _ =>
            let remaining := if (0 <? m_remaining s)%Z then (Z.of_nat budget - Z.of_nat (m_num_ask s))%Z
                             else m_remaining s in
            let '(w, r) := split_jobs (m_world s) (m_running s) in
            match r with
            | Err e => (MSt w (m_num_ask s) (m_running s) (m_finished s) remaining (m_first s) (m_log s), Err e)
            | Ok (run, fin) => (MSt w (m_num_ask s) run fin remaining false (m_log s), Ok tt)
            end
        end
    end.

  (** base.py:687-689: the condition of the loop *)
  Definition continue (s : mst) : bool :=
    negb (m_remaining s =? 0)%Z ||
    match m_running s with [] => false | _ => true end ||
    match m_finished s with [] => false | _ => true end.

  Fixpoint loop (fuel : nat) (s : mst) : mst * mresult :=
    if continue s then
      match fuel with
      | 0%nat => (s, MFuel)
      | S fuel' =>
          let '(w, late) := w_timeout E (m_world s) in
          let s := set_world s w in
          if late then (s, MTimeout)
          else
            let '(s, r) := iteration s in
            match r with
            | Err e => (s, MRaised e)
            | Ok _ => loop fuel' s
            end
      end
    else (s, MDone).

  (** base.py:629-741.  [num_ask], [running] and [finished] are the attributes of
      the optimizer when minimize is called (left by an earlier call). *)
  Definition minimize (fuel : nat) (w : W) (num_ask : nat) (running finished : list item) : mst * mresult :=
    loop fuel (MSt w num_ask running finished (Z.of_nat budget - Z.of_nat num_ask) true []).
End Minimize.
