(** Specification vocabulary for the handlers of the servers. *)
From Verif Require Import SpecNet ModelServer ModelEngine SpecIndexer SpecSearch SpecRank SpecRoute SpecPipe SpecEngine SpecFlight SpecStore SpecEnd
  SpecLife SpecWhole.

(** * Decimal numerals *)
Fixpoint dstr (ds : list nat) : string :=
  match ds with [] => "" | d :: ds' => String (Ascii.ascii_of_nat (48 + d)) (dstr ds') end.
Definition dval (ds : list nat) : Z := foldl (λ n d, 10 * n + Z.of_nat d) 0 ds.
(** One digit or more, with or without a sign; [z] is the number meant. *)
Definition numeral (s : string) (z : Z) : Prop :=
  ∃ ds, ds ≠ [] ∧ Forall (λ d, (d <= 9)%nat) ds ∧
    ((s = dstr ds ∧ z = dval ds) ∨ (s = String.append "+" (dstr ds) ∧ z = dval ds) ∨
     (s = String.append "-" (dstr ds) ∧ z = - dval ds)).
(** The int nearest to [z] *)
Definition nearest_int (z : Z) : Z := Z.max (- 2^63) (Z.min z (2^63 - 1)).

(** * Storing what came through a server *)
(** encoding/gob writes an interface value only if its type is known to it; no value is
    always fine. *)
Definition gob_knows (registered : Iface → bool) (x : Iface) : Prop := x = INil ∨ registered x = true.
Definition gob_rule (registered : Iface → bool) (encode : DocData → option string) : Prop :=
  ∀ d v, encode d = Some v → gob_knows registered (ddAttri d) ∧ gob_knows registered (ddFields d).
(** The type types.Attri has not been registered (nothing in the repository does it). *)
Definition attri_unknown (registered : Iface → bool) (box : Attri → Iface) : Prop :=
  ∀ a, box a ≠ INil ∧ registered (box a) = false.

(** Calls of the engine made by the HTTP handlers, or by any of the servers (net/com.Flush
    is called when the server starts). *)
Definition http_write (box : Attri → Iface) (X : Ext) (stop : gset string) (o : SegOpts) (c : wcall) : Prop :=
  (∃ time ts r, srvWcall X stop o (AddIndex box time ts r) = Some c) ∨ (∃ r, srvWcall X stop o (DelIndex r) = Some c).
Definition from_server (box : Attri → Iface) (unmarshal : string → string * Z) (X : Ext) (stop : gset string) (o : SegOpts)
    (c : wcall) : Prop :=
  c = WFlush ∨ http_write box X stop o c ∨ ∃ q, srvWcall X stop o (DocInx box unmarshal q) = Some c.

(** Number of calls that index a document *)
Definition index_call (c : wcall) : bool :=
  match c with WIndex d _ _ => bool_decide (DocId d ≠ "0") | _ => false end.

(** * Full caches *)
(** Every further document makes the indexer panic. *)
Definition next_add_crashes (sortDocs : list DocIndex → list DocIndex) (s : Indexer) : Prop :=
  ∀ y force, AddDocToCache sortDocs (Some y) force s = None.
(** The answer without documents *)
Definition nothing_found (req : SearchReq) : SearchResp := mkResp (rqTokens req) false 0 (Some []).
