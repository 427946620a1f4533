(** Vocabulary for a user of the chat. *)
From Coq Require Import String.
From Verif Require Import Bytes Kdf ChatUser.

(** What the last event about [n] was: the connection that was stored for it, or
    nothing when it left or never came. The newest event is first. *)
Fixpoint latest (t : list uev) (n : bytes) : option (option nat) :=
  match t with
  | [] => None
  | UStore m c :: t => if bytes_eqb m n then Some c else latest t n
  | UClosed m _ :: t | UGone m :: t => if bytes_eqb m n then None else latest t n
  | _ :: t => latest t n
  end.

(** Nobody is announced with another network than tcp or udp. *)
Definition known_networks (t : list uev) : Prop := forall n net, ~ In (UOther n net) t.

(** Nobody joins who is there already. *)
Definition join_once (t : list uev) : Prop := forall t2 n c t1,
  t = t2 ++ UStore n c :: t1 -> latest t1 n = None.

(** A name in which no byte means something in a URL. *)
Definition plain_byte (b : byte) : bool :=
  (32 <=? b2n b) && negb (b2n b =? 127) && negb (b2n b =? 35) && negb (b2n b =? 37) && negb (b2n b =? 47) && negb (b2n b =? 63).
Definition plain_name (n : bytes) : Prop :=
  forallb plain_byte n = true /\ n <> str "." /\ n <> str "..".

(** ** What a name means in a URL (RFC 3986 as net/url and net/http have it) *)
Definition hex_digit (b : byte) (v : nat) : Prop :=
  nth_error (str "0123456789abcdef") v = Some b \/ nth_error (str "0123456789ABCDEF") v = Some b.
(** [s] with its escapes written out. *)
Inductive unescaped : bytes -> bytes -> Prop :=
| ue_nil : unescaped [] []
| ue_byte b s m : [b] <> str "%" -> unescaped s m -> unescaped (b :: s) (b :: m)
| ue_escape h l x y s m : hex_digit h x -> hex_digit l y -> unescaped s m ->
    unescaped (str "%" ++ h :: l :: s) (n2b (16 * N.of_nat x + N.of_nat y) :: m).
Definition without (c : bytes) (s : bytes) : Prop := forall a b, s <> a ++ c ++ b.
Definition printable (b : byte) : Prop := 32 <= b2n b /\ b2n b <> 127.
(** No segment between slashes is "." or "..", none but the last is empty. *)
Definition proper_path (m : bytes) : Prop := forall a g b, m = a ++ g ++ b -> without (str "/") g ->
  a = [] \/ (exists a', a = a' ++ str "/") -> b = [] \/ (exists b', b = str "/" ++ b') ->
  g <> str "." /\ g <> str ".." /\ (g = [] -> b = []).
(** "users/" followed by [n] is understood as the path "users/" followed by [m]. *)
Definition names_in_url (n m : bytes) : Prop := exists path query fragment,
  n = path ++ query ++ fragment /\
  without (str "?") path /\ without (str "#") path /\ without (str "#") query /\
  (query = [] \/ exists q, query = str "?" ++ q) /\
  (fragment = [] \/ exists f f', fragment = str "#" ++ f /\ unescaped f f') /\
  Forall printable (path ++ query) /\ unescaped path m /\ proper_path m.
