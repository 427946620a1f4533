(** The quick start of /repo/README.md: a client that fetches the server's key over
    the protocol on a connection of its own (key/client_fetcher.go:186-252, called
    from client.go:233), dials, and calls Write and io.ReadAll, message after
    message.

    The fetch is a program by itself: its connection is another one than that of
    the client, so a client that fetched [pk] is one whose fetcher answers [pk]. *)
From Verif Require Import Bytes Parser Crypto Wire Server ServerSeq Keys Client ClientSeq Usage.

(** client_fetcher.go:187: the host is ignored. *)
Definition knowing (CE : cenv) (pk : pubkey) : cenv :=
  {| ce_end := ce_end CE; ce_write := ce_write CE; ce_deadline := ce_deadline CE; ce_fetch := fun _ => Some pk;
     ce_rand := ce_rand CE; ce_gen := ce_gen CE |}.

(** Write and io.ReadAll ([size] and [k] as in Usage.v) for every message. A Write
    that fails ends the program. *)
Fixpoint says (C : Crypto) (o : copts) (ses : csession) (size : nat -> N) (k : nat) (ps : list bytes)
  : cprog (list (option (bytes * option rd_error))) :=
  match ps with
  | [] => CRet []
  | p :: ps' =>
      doc w <- client_write C o ses p;
      match w with
      | WrConn _ false =>
          doc r <- read_all C o ses size k [];
          doc rs <- says C o ses size k ps';
          CRet (r :: rs)
      | _ => CRet []
      end
  end.
Definition quick (C : Crypto) (o : copts) (host : bytes) (size : nat -> N) (k : nat) (ps : list bytes)
  : cprog (hs_error + list (option (bytes * option rd_error))) :=
  doc h <- handshake C (Some host);
  match h with
  | inl e => CRet (inl e)
  | inr ses => doc rs <- says C o ses size k ps; CRet (inr rs)
  end.
