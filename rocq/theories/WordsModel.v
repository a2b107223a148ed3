(** Names of wiki articles, /repo/nip54/nip54.go, and keys from seed words, /repo/nip06/nip06.go. *)
From Verif Require Import Base EventModel.
Import ListNotations.

(** ** nip54/nip54.go:11-26. A string is the list of its code points; what is not UTF-8 is read as U+FFFD.
    Given: unicode.ToLower, IsSpace, IsLetter, IsNumber and the normal form NFKC. *)
Section Unicode.
Variable lower : N -> N.
Variable space letter number : N -> bool.
Variable nfkc : list N -> list N.
Fixpoint trim_front (s : list N) : list N := match s with c :: r => if space c then trim_front r else s | [] => [] end.
Definition trim_both (s : list N) : list N := rev (trim_front (rev (trim_front s))).
Definition normalize_identifier (name : list N) : list N :=
  map (fun r => if letter r || number r then r else 45%N) (nfkc (trim_both (map lower name))).
End Unicode.

(** ** nip06/nip06.go:28-51. Given: bip32.NewMasterKey, Key.NewChildKey and the bytes of a key. *)
Section Bip32.
Variable key : Type.
Variable master : str -> option key.
Variable child : key -> Z -> option key.
Variable bytes : key -> str.
Definition first_hardened : Z := 0x80000000.
Definition seed_path : list Z := [first_hardened + 44; first_hardened + 1237; first_hardened + 0; 0; 0]%Z.
Fixpoint walk (k : key) (path : list Z) : option key :=
  match path with [] => Some k | i :: r => match child k i with Some k' => walk k' r | None => None end end.
Definition key_from_seed (seed : str) : option str :=
  match master seed with None => None | Some k => match walk k seed_path with Some k' => Some (hex_encode (bytes k')) | None => None end end.
End Bip32.
