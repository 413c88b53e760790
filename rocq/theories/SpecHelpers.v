(** Specification vocabulary for the helpers. *)
From Verif Require Import ModelHelpers.

(** The name that is asked for: the first argument, the environment variable, "ldb"; empty
    strings count as absent. *)
Inductive asked_for : string → list string → string → Prop :=
  | asked_arg env a args : a ≠ "" → asked_for env (a :: args) a
  | asked_env env args : (args = [] ∨ ∃ rest, args = "" :: rest) → env ≠ "" → asked_for env args env
  | asked_default args : (args = [] ∨ ∃ rest, args = "" :: rest) → asked_for "" args "ldb".

(** [fn] is the last way to open stores of this name that was registered. *)
Definition last_registered {St} (calls : list (string * option (@opener St))) (name : string) (fn : option opener) : Prop :=
  ∃ before after, calls = before ++ (name, fn) :: after ∧ name ∉ after.*1.
