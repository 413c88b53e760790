(** Specification vocabulary for the persistent store. *)
From Verif Require Import ModelStore.

(** An iteration visits every entry once. *)
Definition valid_iter (iter : kv → list (string * string)) : Prop := ∀ db, iter db ≡ₚ map_to_list db.
(** What was encoded is decoded again. *)
Definition round_trip (encode : DocData → option string) (decode : string → DocData * bool) : Prop :=
  ∀ d v, encode d = Some v → decode v = (d, false).

(** A value that reaches the database for this id and these data. *)
Definition writable (accepts : string → string → bool) (encode : DocData → option string)
    (id : string) (d : DocData) (v : string) : Prop :=
  encode d = Some v ∧ accepts id v = true.

(** The value of the last Index call for [id] that could be written. *)
Definition last_written accepts encode (cs : list scall) (id v : string) : Prop :=
  ∃ cs1 d cs2, cs = cs1 ++ SIndex id d :: cs2 ∧ writable accepts encode id d v ∧
    ∀ d' v', SIndex id d' ∈ cs2 → ¬ writable accepts encode id d' v'.
Definition never_written accepts encode (cs : list scall) (id : string) : Prop :=
  ∀ d v, SIndex id d ∈ cs → ¬ writable accepts encode id d v.

(** The calls as operations on a map. *)
Definition map_call (accepts : string → string → bool) (encode : DocData → option string) (id : string) (o : option string) (c : scall) : option string :=
  match c with
  | SIndex id' d =>
    if decide (id' = id) then
      match encode d with Some v => if accepts id v then Some v else o | None => o end
    else o
  | SRemove id' => if decide (id' = id) then None else o
  | SFlush => o
  end.
Definition map_value accepts encode (start : option string) (cs : list scall) (id : string) : option string :=
  foldl (map_call accepts encode id) start cs.

(** Executions of the store side, and their ends. *)
Definition store_reach accepts encode murmur n (progs : list (list scall)) (s : sstate) : Prop :=
  rtc (storeStep accepts encode murmur n) (storeStart n progs) s.
Definition clients_done (s : sstate) : Prop := Forall (λ c, scCalls c = [] ∧ scActs c = []) (ssClients s).
Definition store_quiet (s : sstate) : Prop := clients_done s ∧ Forall (eq WIdle) (ssWork s) ∧ ssDels s = [].

(** The requests (hand-overs to a worker and started removals), and whether every
    request on [id] starts only after all earlier ones on [id] have been carried out. *)
Definition starts_on (id : string) (e : sevent) : bool :=
  match e with EvSent id' _ | EvSpawn id' => seqb id' id | _ => false end.
Definition ends_on (id : string) (e : sevent) : bool :=
  match e with EvWrite id' _ | EvDel id' => seqb id' id | _ => false end.
Definition orderly (id : string) (log : list sevent) : Prop :=
  ∀ l1 e l2, log = l1 ++ e :: l2 → starts_on id e = true →
    length (filter (λ e, starts_on id e = true) l1) = length (filter (λ e, ends_on id e = true) l1).
Definition requests (log : list sevent) : list scall :=
  omap (λ e, match e with EvSent id d => Some (SIndex id d) | EvSpawn id => Some (SRemove id) | _ => None end) log.

(** Every stored id is in the shard its hash gives. *)
Definition placed (murmur : string → Z) (n : Z) (dbs : Z → kv) : Prop :=
  ∀ j id, 0 <= j < n → is_Some (dbs j !! id) → storeShard murmur n id = j.

(** [d] are the data of the last Index call for [id]. *)
Definition last_data (cs : list scall) (id : string) (d : DocData) : Prop :=
  ∃ cs1 cs2, cs = cs1 ++ SIndex id d :: cs2 ∧ ∀ d', SIndex id d' ∉ cs2.
