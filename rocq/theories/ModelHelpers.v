(** Executable model of small helpers: riot.go Try, store/store.go RegisterStore and OpenStore.

    A Go function without arguments and results is a function from the state it works on to
    the new state and the way it ends. *)
From Verif Require Export GoBase ModelRanker.

(** How a call ends: it returns, panics with a value, or ends its goroutine (runtime.Goexit) *)
Inductive ending := Returns | Panics (v : Iface) | Exits.
Definition gofunc (S : Type) := S → S * ending.

(** riot.go:183-190 Try. recover() gives the value of the panic, nil if there is none; in the
    Go version of go.mod (1.13) it also gives nil for panic(nil), which ends by the call of
    recover all the same. The handler runs in the deferred function: what it does at its end
    is what Try does. *)
Definition Try {S} (fun_ : gofunc S) (handler : Iface → gofunc S) : gofunc S := λ s,
  match fun_ s with
  | (s1, Returns) => (s1, Returns)
  | (s1, Exits) => (s1, Exits)
  | (s1, Panics INil) => (s1, Returns)
  | (s1, Panics err) => handler err s1
  end.

(** store/store.go:22-40 DefaultStore, supportedStore, RegisterStore; a way to open a store is a function
    from the path to the store (None: error); the registered function value may be nil (None).
    Calls of RegisterStore and OpenStore come one after the other: the map has no lock. *)
Section Registry.
  Context {St : Type}.
  Definition opener := string → option St.
  Definition registry := gmap string (option opener).
  Definition supported (ldb bg bolt : opener) : registry :=
    <["ldb" := Some ldb]> (<["bg" := Some bg]> (<["bolt" := Some bolt]> ∅)).
  Definition RegisterStore (name : string) (fn : option opener) (m : registry) : registry := <[name := fn]> m.
  (** store/store.go:55-72 OpenStore: [args] are the names given, [env] the variable
      Riot_Store_Engine. None: panic (call of a nil function); Some None: error *)
  Definition OpenRegistered (m : registry) (env path : string) (args : list string) : option (option St) :=
    let storeName :=
      match args with
      | a :: _ => if negb (seqb a "") then a else if negb (seqb env "") then env else "ldb"
      | [] => if negb (seqb env "") then env else "ldb"
      end in
    match m !! storeName with
    | Some (Some fn) => Some (fn path)
    | Some None => None
    | None => Some None
    end.
  Definition registered (m : registry) (calls : list (string * option opener)) : registry :=
    foldl (λ m c, RegisterStore c.1 c.2 m) m calls.
End Registry.
