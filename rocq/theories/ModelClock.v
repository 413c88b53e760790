(** The deadline of a search: engine.go:591-630 TimeOut with the clock in view.

    Times are nanoseconds on the monotonic clock, as integers.  time.Time.Add and Sub do not
    overflow for durations that fit an int64 and clocks of real machines; this is assumed.
    A reply is described by the time at which it is in rankerReturnChan. *)
From Verif Require Export ModelEngine.

(** engine.go:49-50 *)
Definition NumNanosecondsInAMillisecond : Z := 1000000.

(** engine.go:595-596: the product is computed in int, which has 64 bits *)
Definition deadlineAt (start timeout : Z) : Z := start + int64 (NumNanosecondsInAMillisecond * timeout).

(** engine.go:605-620: one round of the loop, entered at time [now].  The select ends at some time
    [t]: with a reply that is in the channel by then, or with the timer, which does not fire
    before the deadline.  If both are ready, either of them is taken. *)
Inductive timedRound (deadline : Z) : Z → list (Z * Reply) → option Reply → Z → list (Z * Reply) → Prop :=
  | RoundReply now t a rp rest : now <= t → a <= t → timedRound deadline now ((a, rp) :: rest) (Some rp) t rest
  | RoundLate now t arriving : now <= t → deadline <= t → timedRound deadline now arriving None t arriving.

(** engine.go:604-621: the loop over the shards *)
Inductive timedRounds (deadline : Z) : Z → list (Z * Reply) → list (option Reply) → Z → Prop :=
  | RoundsEnd now arriving : timedRounds deadline now arriving [] now
  | RoundsMore now arriving e t left es t' :
      timedRound deadline now arriving e t left → timedRounds deadline t left es t' → timedRounds deadline now arriving (e :: es) t'.
