(** What calls of the gRPC service do when client and server are at the two ends of the
    wire. *)
From Verif Require Export ModelWireNet SpecWire.

(** attributes as a client program encodes them *)
Definition attributes (title author time : string) (ts : Z) : WAttri := mkWAttri title author time ts [].
(** the documents a client can hold: locations are int32 *)
Definition sendable (q : DocReq) : Prop := Forall (λ t, Forall fits32 t.2) (dqTokens q) ∧ short (doc_wire (docMsg q)).
Definition searchable (s : SeaArgs) (es : list (string * bool)) : Prop :=
  fits32 (saOff s) ∧ fits32 (saMax s) ∧ short (search_wire es (searchMsg s)).
(** the texts of an answer: title, author and scores are not sent *)
Definition bare (t : Text) : Prop := txScore t = [] ∧ atTitle (txAttri t) = "" ∧ atAuthor (txAttri t) = "" ∧ fits64 (atTs (txAttri t)).
