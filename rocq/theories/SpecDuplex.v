(** Vocabulary for a client that reads and writes at the same time. *)
From Verif Require Import Bytes Parser Crypto Wire Server Keys Client ClientSeq SpecClient.

(** [fs] are the octets of the answers [ds] to the messages with the counters
    after [c]. *)
Inductive answers (C : Crypto) (key : bytes) : N -> list bytes -> list bytes -> Prop :=
| an_nil c : answers C key c [] []
| an_cons c d ds f fs : process_response_octets f (c + 1) (gcm_seal C key (gcm_nonce dir_s2c (c + 1)) d) ->
    answers C key (c + 1) ds fs -> answers C key c (d :: ds) (f :: fs).

(** What the Reads returned: each its answer or the error for an answer to an
    older message, and the last one its answer. *)
Definition read_well (ds : list bytes) (rs : list rd_result) : Prop :=
  Forall2 (fun d r => r = RdOk d true \/ r = RdErr RdCounter) ds rs /\
  forall d, last (map Some ds) None = Some d -> last (map Some rs) None = Some (RdOk d true).

(** No infinite sequence of moves starts here. *)
Definition always_ends {X V} (move : X -> V -> option X) (x : X) : Prop :=
  Acc (fun y x => exists v, move x v = Some y) x.
