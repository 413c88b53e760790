(** Vocabulary for deadlines. *)
From Verif Require Export ModelClock ModelFlight.

(** The scheduler is prompt: a select ends as soon as one of its cases is ready. *)
Inductive prompt_rounds (deadline : Z) : Z → list (Z * Reply) → list (option Reply) → Z → Prop :=
  | PromptEnd now arriving : prompt_rounds deadline now arriving [] now
  | PromptMore now arriving e t left es t' :
      timedRound deadline now arriving e t left →
      (∀ u, now <= u < t → u < deadline ∧ ∀ a, arriving !! 0%nat = Some a → u < a.1) →
      prompt_rounds deadline t left es t' → prompt_rounds deadline now arriving (e :: es) t'.
