(** The production client of /repo/README.md: the default key fetcher
    (client.go:52-65), that is ClientFetcherDNSKEY (key/client_fetcher.go:79-88)
    with the answer of the DNS-over-HTTPS provider, called from client.go:233.

    [answer host] is what the provider answers for the host. *)
From Verif Require Import Bytes Parser Crypto Wire Server ServerSeq Keys Client ClientSeq Dnssec.

Definition resolving (CE : cenv) (answer : bytes -> doh_response) : cenv :=
  {| ce_end := ce_end CE; ce_write := ce_write CE; ce_deadline := ce_deadline CE;
     ce_fetch := fun host => match doh_retrieve (answer host) with KOk pk => Some pk | _ => None end;
     ce_rand := ce_rand CE; ce_gen := ce_gen CE |}.
