(** Blind signatures of ecash mints: /repo/nip60/helpers.go:41-83 and 116-185, /repo/nip61/verify.go:41-141, on a curve. The functions of gonuts
    (crypto.BlindMessage, UnblindSignature, SignBlindedMessage, GenerateDLEQ, VerifyDLEQ; not part of /repo) are written from NUT-00 and NUT-12. *)
From Verif Require Import Base EventModel KeyModel.
Import ListNotations.
Local Open Scope Z_scope.

Section Blind.
Variable c : curve.
Notation P := (cv_P c).
(** crypto.HashToCurve, and crypto.HashE: the 32 bytes of a hash of points *)
Variable to_curve : str -> option P.
Variable hash_e : list P -> str.

(** secp256k1.ParsePubKey of SerializeCompressed. Simplification: the uncompressed form of 65 bytes is refused. *)
Definition parse_point (b : str) : option P :=
  match b with
  | f :: x => if Nat.eqb (length x) 32 then
                match cv_lift c x with
                | Some p => if (val f =? 2)%N then Some p else if (val f =? 3)%N then Some (cv_neg c p) else None
                | None => None
                end
              else None
  | [] => None
  end.
Definition point_text (p : P) : str := hex_encode (compressed c p).
Definition read_point (t : str) : option P := match hex_decode t with Some b => parse_point b | None => None end.
(** PrivateKey.Serialize in hex, and PrivKeyFromBytes of hex *)
Definition scalar_text (k : Z) : str := hex_encode (be_bytes 32 (k mod cv_n c)).
Definition read_scalar (t : str) : option Z := match hex_decode t with Some b => Some (scalar c b) | None => None end.

(** crypto.BlindMessage *)
Definition blind (secret : str) (r : Z) : option P := match to_curve secret with Some y => Some (cv_add c y (smul c r (cv_gen c))) | None => None end.
(** crypto.UnblindSignature *)
Definition unblind (c_ : P) (r : Z) (k : P) : P := cv_add c c_ (cv_neg c (smul c r k)).
(** crypto.VerifyDLEQ: the two commitments, and the hash compared with e *)
Definition commit1 (e s : Z) (a : P) : P := cv_add c (smul c s (cv_gen c)) (smul c (- e) a).
Definition commit2 (e s : Z) (b_ c_ : P) : P := cv_add c (smul c s b_) (smul c (- e) c_).
Definition verify_dleq (e s : Z) (a b_ c_ : P) : bool := seqb (be_bytes 32 (e mod cv_n c)) (hash_e [commit1 e s a; commit2 e s b_ c_; a; c_]).

(** cashu.DLEQProof; nip61/verify.go:112-141 parseDLEQ *)
Record dleq := mkDleq { dq_e : str; dq_s : str; dq_r : str }.
Definition parse_dleq (d : dleq) : option (Z * Z * option Z) :=
  match read_scalar (dq_e d), read_scalar (dq_s d) with
  | Some e, Some s => match dq_r d with
                      | [] => Some (e, s, None)
                      | _ => match read_scalar (dq_r d) with Some r => Some (e, s, Some r) | None => None end
                      end
  | _, _ => None
  end.
(** nip61/verify.go:80-110, and nut12.VerifyBlindSignatureDLEQ, of which it is a copy *)
Definition verify_blind_dleq (d : dleq) (a : P) (b_text c_text : str) : bool :=
  match parse_dleq d, read_point b_text, read_point c_text with
  | Some (e, s, _), Some b_, Some c_ => verify_dleq e s a b_ c_
  | _, _, _ => false
  end.

(** What is kept of an output (prep.bm[i].B_, prep.secrets[i], prep.rs[i]), a mint's answer, and a proof *)
Record prep := mkPrep { pp_B : str; pp_secret : str; pp_r : Z }.
Record bsig := mkBsig { bs_amount : Z; bs_C : str; bs_id : str; bs_dleq : option dleq }.
Record cproof := mkCproof { cp_amount : Z; cp_secret : str; cp_C : str; cp_id : str; cp_dleq : option dleq }.
(** nip60/helpers.go:41-83, one output: [r] and [secret] are the random choices *)
Definition prepare (secret : str) (r : Z) : option prep := match blind secret r with Some b => Some (mkPrep (point_text b) secret r) | None => None end.
(** nip60/helpers.go:169-185 *)
Definition unblind_signature (c_text : str) (r : Z) (k : P) : option str := match read_point c_text with Some c_ => Some (point_text (unblind c_ r k)) | None => None end.
(** nip60/helpers.go:116-167 *)
Fixpoint construct_proofs (keys : Z -> option P) (preps : list prep) (sigs : list bsig) {struct sigs} : outcome (list cproof) :=
  match sigs with
  | [] => Ok []
  | b :: sigs =>
    match keys (bs_amount b) with
    | None => Err
    | Some a =>
      match preps with
      | [] => Panic
      | p :: preps =>
        if match bs_dleq b with Some d => negb (verify_blind_dleq d a (pp_B p) (bs_C b)) | None => false end then Err
        else match unblind_signature (bs_C b) (pp_r p) a with
        | None => Err
        | Some ct =>
          let d := match bs_dleq b with Some d => Some (mkDleq (dq_e d) (dq_s d) (scalar_text (pp_r p))) | None => None end in
          obind (construct_proofs keys preps sigs) (fun ps => Ok (mkCproof (bs_amount b) (pp_secret p) ct (bs_id b) d :: ps))
        end
      end
    end
  end.
(** nip61/verify.go:41-78; without a DLEQ, or when the key is needed and missing, it panics *)
Definition verify_proof (p : cproof) (a : option P) : outcome bool :=
  match cp_dleq p with
  | None => Panic
  | Some d =>
    match parse_dleq d with
    | Some (e, s, Some r) =>
      match blind (cp_secret p) r, read_point (cp_C p) with
      | Some b_, Some cc =>
        match a with
        | None => Panic
        | Some a => Ok (verify_dleq e s a b_ (cv_add c cc (smul c r a)))
        end
      | _, _ => Ok false
      end
    | _ => Ok false
    end
  end.

(** An honest mint: crypto.SignBlindedMessage and GenerateDLEQ with the nonce [t] *)
Definition mint_dleq (k t : Z) (a b_ c_ : P) : dleq :=
  let e := be_val (hash_e [smul c t (cv_gen c); smul c t b_; a; c_]) mod cv_n c in
  mkDleq (scalar_text e) (scalar_text (t + e * k)) [].
Definition mint_sign (k t amount : Z) (id b_text : str) : option bsig :=
  match read_point b_text with
  | Some b_ => let c_ := smul c k b_ in Some (mkBsig amount (point_text c_) id (Some (mint_dleq k t (smul c k (cv_gen c)) b_ c_)))
  | None => None
  end.
End Blind.
