(** JSON as defined by RFC 8259: an abstract syntax and a reader.
    This file is the reference against which the encoders of /repo are checked.
    It is also the stand-in for the external lexers (easyjson/jlexer and gjson),
    whose sources are not in /repo; see DESIGN.md, "What is not modelled".
    Simplifications: bytes above 0x7f inside strings are passed through (UTF-8 is
    checked separately where it matters); a number keeps its source text. *)
From Verif Require Import Base.
Local Open Scope N_scope.

Inductive json : Type :=
| JNull
| JBool (b : bool)
| JNum (text : str)
| JStr (s : str)
| JArr (l : list json)
| JObj (l : list (str * json)).

Definition quote : ascii := ascii_of_N 34.
Definition bslash : ascii := ascii_of_N 92.

(** UTF-8 encoding of a code point below 0x110000. *)
Definition utf8 (cp : N) : str :=
  if cp <? 0x80 then [byte_of cp]
  else if cp <? 0x800 then [byte_of (0xC0 + cp / 64); byte_of (0x80 + cp mod 64)]
  else if cp <? 0x10000 then
    [byte_of (0xE0 + cp / 4096); byte_of (0x80 + (cp / 64) mod 64); byte_of (0x80 + cp mod 64)]
  else [byte_of (0xF0 + cp / 262144); byte_of (0x80 + (cp / 4096) mod 64);
        byte_of (0x80 + (cp / 64) mod 64); byte_of (0x80 + cp mod 64)].

Definition hex4 (a b c d : ascii) : option N :=
  match hex_val a, hex_val b, hex_val c, hex_val d with
  | Some a, Some b, Some c, Some d => Some (4096 * a + 256 * b + 16 * c + d)
  | _, _, _, _ => None
  end.

Definition is_surrogate (cp : N) : bool := (0xD800 <=? cp) && (cp <? 0xE000).
Definition is_high (cp : N) : bool := (0xD800 <=? cp) && (cp <? 0xDC00).
Definition is_low (cp : N) : bool := (0xDC00 <=? cp) && (cp <? 0xE000).

Definition simple_escape (c : ascii) : option ascii :=
  match val c with
  | 34 => Some c (* quote *)
  | 92 => Some c (* reverse solidus *)
  | 47 => Some c (* solidus *)
  | 98 => Some (byte_of 8)
  | 102 => Some (byte_of 12)
  | 110 => Some (byte_of 10)
  | 114 => Some (byte_of 13)
  | 116 => Some (byte_of 9)
  | _ => None
  end.

Definition pre (p : str) (r : option (str * str)) : option (str * str) :=
  match r with Some (s, rest) => Some (p ++ s, rest) | None => None end.

(** The rest of a string after its opening quote: value and remaining text. *)
Fixpoint lex_string (s : str) : option (str * str) :=
  match s with
  | [] => None
  | c :: r =>
    if ceqb c quote then Some ([], r)
    else if ceqb c bslash then
      match r with
      | [] => None
      | e :: r1 =>
        if ceqb e "u"%char then
          match r1 with
          | h1 :: h2 :: h3 :: h4 :: r2 =>
            match hex4 h1 h2 h3 h4 with
            | None => None
            | Some cp =>
              if is_surrogate cp then
                match r2 with
                | b' :: u' :: l1 :: l2 :: l3 :: l4 :: r3 =>
                  match (if ceqb b' bslash && ceqb u' "u"%char then hex4 l1 l2 l3 l4 else None) with
                  | Some lo =>
                    if is_high cp && is_low lo
                    then pre (utf8 (0x10000 + (cp - 0xD800) * 1024 + (lo - 0xDC00))) (lex_string r3)
                    else pre (utf8 0xFFFD) (lex_string r2)
                  | None => pre (utf8 0xFFFD) (lex_string r2)
                  end
                | _ => pre (utf8 0xFFFD) (lex_string r2)
                end
              else pre (utf8 cp) (lex_string r2)
            end
          | _ => None
          end
        else match simple_escape e with
             | Some v => pre [v] (lex_string r1)
             | None => None
             end
      end
    else if val c <? 32 then None
    else pre [c] (lex_string r)
  end.

Definition is_ws (c : ascii) : bool :=
  let n := val c in (n =? 32) || (n =? 9) || (n =? 10) || (n =? 13).

Fixpoint skip_ws (s : str) : str :=
  match s with
  | c :: r => if is_ws c then skip_ws r else s
  | [] => []
  end.

Fixpoint span_digits (s : str) : str * str :=
  match s with
  | c :: r => if is_digit c then let '(d, r') := span_digits r in (c :: d, r') else ([], s)
  | [] => ([], [])
  end.

(** int = zero / ( digit1-9 *DIGIT ) *)
Definition int_ok (d : str) : bool :=
  match d with
  | [] => false
  | [_] => true
  | c :: _ => negb (ceqb c "0"%char)
  end.

(** number = [ minus ] int [ frac ] [ exp ] *)
Definition lex_number (s : str) : option (str * str) :=
  let '(sign, s1) := match s with
                     | m :: r => if ceqb m "-"%char then ([m], r) else ([], s)
                     | [] => ([], s) end in
  let '(i, s2) := span_digits s1 in
  if negb (int_ok i) then None else
  let frac :=
    match s2 with
    | p :: r => if ceqb p "."%char then
                  let '(f, r') := span_digits r in
                  match f with [] => None | _ => Some (p :: f, r') end
                else Some ([], s2)
    | [] => Some ([], s2)
    end in
  match frac with
  | None => None
  | Some (fr, s3) =>
    let exp :=
      match s3 with
      | e :: r =>
        if ceqb e "e"%char || ceqb e "E"%char then
          let '(sg, r1) := match r with
                           | g :: r' => if ceqb g "+"%char || ceqb g "-"%char then ([g], r') else ([], r)
                           | [] => ([], r) end in
          let '(x, r2) := span_digits r1 in
          match x with [] => None | _ => Some (e :: sg ++ x, r2) end
        else Some ([], s3)
      | [] => Some ([], s3)
      end in
    match exp with
    | None => None
    | Some (ex, s4) => Some (sign ++ i ++ fr ++ ex, s4)
    end
  end.

(** value; every recursive call spends one unit of fuel, and running out is a failure. *)
Fixpoint pval (fuel : nat) (s : str) {struct fuel} : option (json * str) :=
  match fuel with
  | O => None
  | S f =>
    match skip_ws s with
    | [] => None
    | c :: r =>
      if ceqb c quote then
        match lex_string r with Some (v, r') => Some (JStr v, r') | None => None end
      else if ceqb c "["%char then
        match skip_ws r with
        | d :: r' =>
          if ceqb d "]"%char then Some (JArr [], r')
          else match pelems f (d :: r') with Some (l, r'') => Some (JArr l, r'') | None => None end
        | [] => None
        end
      else if ceqb c "{"%char then
        match skip_ws r with
        | d :: r' =>
          if ceqb d "}"%char then Some (JObj [], r')
          else match pmembers f (d :: r') with Some (l, r'') => Some (JObj l, r'') | None => None end
        | [] => None
        end
      else if has_prefix (c :: r) (B "null") then Some (JNull, skipn 4 (c :: r))
      else if has_prefix (c :: r) (B "true") then Some (JBool true, skipn 4 (c :: r))
      else if has_prefix (c :: r) (B "false") then Some (JBool false, skipn 5 (c :: r))
      else match lex_number (c :: r) with Some (t, r') => Some (JNum t, r') | None => None end
    end
  end
with pelems (fuel : nat) (s : str) {struct fuel} : option (list json * str) :=
  match fuel with
  | O => None
  | S f =>
    match pval f s with
    | None => None
    | Some (v, r) =>
      match skip_ws r with
      | d :: r' =>
        if ceqb d "]"%char then Some ([v], r')
        else if ceqb d ","%char then
          match pelems f r' with Some (l, r'') => Some (v :: l, r'') | None => None end
        else None
      | [] => None
      end
    end
  end
with pmembers (fuel : nat) (s : str) {struct fuel} : option (list (str * json) * str) :=
  match fuel with
  | O => None
  | S f =>
    match skip_ws s with
    | q :: s1 =>
      if ceqb q quote then
        match lex_string s1 with
        | None => None
        | Some (k, r0) =>
          match skip_ws r0 with
          | c :: r1 =>
            if ceqb c ":"%char then
              match pval f r1 with
              | None => None
              | Some (v, r) =>
                match skip_ws r with
                | d :: r' =>
                  if ceqb d "}"%char then Some ([(k, v)], r')
                  else if ceqb d ","%char then
                    match pmembers f r' with Some (l, r'') => Some ((k, v) :: l, r'') | None => None end
                  else None
                | [] => None
                end
              end
            else None
          | [] => None
          end
        end
      else None
    | [] => None
    end
  end.

(** A whole JSON text. *)
Definition json_parse (s : str) : option json :=
  match pval (2 * length s + 2) s with
  | Some (v, r) => match skip_ws r with [] => Some v | _ => None end
  | None => None
  end.

Example json_parse_ex :
  json_parse (B " [ ""a\u00e9\n"", -12.5e3, {""k"": [], ""z"":null} , true]") =
  Some (JArr [JStr (B "a" ++ [byte_of 0xC3; byte_of 0xA9; byte_of 10]); JNum (B "-12.5e3");
              JObj [(B "k", JArr []); (B "z", JNull)]; JBool true]).
Proof. vm_compute. reflexivity. Qed.
Example json_parse_ex2 : json_parse (B "[1,]") = None.
Proof. vm_compute. reflexivity. Qed.
Example json_parse_ex3 : json_parse (B "01") = None.
Proof. vm_compute. reflexivity. Qed.
Example json_parse_ex4 :
  json_parse (B """\ud83d\ude00""") = Some (JStr (map byte_of [0xF0; 0x9F; 0x98; 0x80])).
Proof. vm_compute. reflexivity. Qed.

(** Compact texts: the relation "text t is a JSON text for v with no spaces between
    tokens". Only used to prove facts about [json_parse]. *)
Inductive enc_char : str -> str -> Prop :=
| ec_raw c : c <> quote -> c <> bslash -> 32 <= val c -> enc_char [c] [c]
| ec_simple e v : simple_escape e = Some v -> enc_char [bslash; e] [v]
| ec_u a b c d cp : hex4 a b c d = Some cp -> is_surrogate cp = false ->
    enc_char [bslash; "u"%char; a; b; c; d] (utf8 cp).

Inductive enc_chars : str -> str -> Prop :=
| ecs_nil : enc_chars [] []
| ecs_cons t v t' v' : enc_char t v -> enc_chars t' v' -> enc_chars (t ++ t') (v ++ v').

Inductive enc : str -> json -> Prop :=
| e_null : enc (B "null") JNull
| e_true : enc (B "true") (JBool true)
| e_false : enc (B "false") (JBool false)
| e_int z : enc (dec_Z z) (JNum (dec_Z z))
| e_str t s : enc_chars t s -> enc (quote :: t ++ [quote]) (JStr s)
| e_arr0 : enc (B "[]") (JArr [])
| e_arr t l : enc_elems t l -> enc ("["%char :: t) (JArr l)
| e_obj0 : enc (B "{}") (JObj [])
| e_obj t l : enc_members t l -> enc ("{"%char :: t) (JObj l)
with enc_elems : str -> list json -> Prop :=
| ee_last t v : enc t v -> enc_elems (t ++ B "]") [v]
| ee_cons t v t' l : enc t v -> enc_elems t' l -> enc_elems (t ++ ","%char :: t') (v :: l)
with enc_members : str -> list (str * json) -> Prop :=
| em_last tk k t v : enc_chars tk k -> enc t v ->
    enc_members (quote :: tk ++ quote :: ":"%char :: t ++ B "}") [(k, v)]
| em_cons tk k t v t' l : enc_chars tk k -> enc t v -> enc_members t' l ->
    enc_members (quote :: tk ++ quote :: ":"%char :: t ++ ","%char :: t') ((k, v) :: l).

Scheme enc_ind3 := Induction for enc Sort Prop
  with enc_elems_ind3 := Induction for enc_elems Sort Prop
  with enc_members_ind3 := Induction for enc_members Sort Prop.
Combined Scheme enc_mutind from enc_ind3, enc_elems_ind3, enc_members_ind3.

Lemma ceqb_refl c : ceqb c c = true.
Proof. apply Ascii.eqb_refl. Qed.

Lemma ceqb_neq a b : a <> b -> ceqb a b = false.
Proof. intro H; unfold ceqb; apply Ascii.eqb_neq; exact H. Qed.

Lemma lex_enc_char t v r : enc_char t v -> lex_string (t ++ r) = pre v (lex_string r).
Proof.
  intro H; destruct H as [c H1 H2 H3|e v H|a b c d cp H1 H2]; cbn [app lex_string].
  - rewrite !ceqb_neq by assumption.
    destruct (N.ltb_spec (val c) 32); [lia|reflexivity].
  - assert (Hu : ceqb e "u"%char = false).
    { apply ceqb_neq; intros ->; discriminate H. }
    change (ceqb bslash quote) with false. rewrite ceqb_refl, Hu, H. reflexivity.
  - change (ceqb bslash quote) with false. rewrite !ceqb_refl, H1, H2. reflexivity.
Qed.

Lemma lex_enc_chars t v r : enc_chars t v -> lex_string (t ++ quote :: r) = Some (v, r).
Proof.
  induction 1 as [|t v t' v' H1 H2 IH].
  - reflexivity.
  - rewrite <- app_assoc, (lex_enc_char _ _ _ H1), IH. reflexivity.
Qed.

(** What may follow a value: nothing that could extend a number. *)
Definition stop (r : str) : bool :=
  match r with
  | [] => true
  | c :: _ => negb (is_digit c || ceqb c "."%char || ceqb c "e"%char || ceqb c "E"%char)
  end.

Lemma stop_nd r : stop r = true -> match r with [] => true | c :: _ => negb (is_digit c) end = true.
Proof. destruct r as [|c r]; [reflexivity|]; cbn [stop]. destruct (is_digit c); [discriminate|reflexivity]. Qed.

Lemma span_digits_app d r : forallb is_digit d = true -> stop r = true -> span_digits (d ++ r) = (d, r).
Proof.
  intros Hd Hr; induction d as [|c d IH]; cbn [app].
  - destruct r as [|c r]; [reflexivity|]. cbn [span_digits].
    apply stop_nd in Hr. destruct (is_digit c); [discriminate|reflexivity].
  - cbn [forallb] in Hd. apply andb_true_iff in Hd as [Hc Hd]. cbn [span_digits].
    rewrite Hc, (IH Hd). reflexivity.
Qed.

Lemma pos_to_uint_D0 u p : Pos.to_uint p <> Decimal.D0 u.
Proof.
  intro H. assert (Hu := DecimalPos.Unsigned.to_of (Pos.to_uint p)).
  rewrite DecimalPos.Unsigned.of_to in Hu. cbn [N.to_uint] in Hu.
  (* unorm removes leading zeros, but to_uint is normalised *)
  unfold Decimal.unorm in Hu.
  assert (L : forall w, match Decimal.nzhead w with Decimal.D0 _ => False | _ => True end).
  { induction w; cbn [Decimal.nzhead]; auto. }
  rewrite H in Hu. specialize (L (Decimal.D0 u)).
  destruct (Decimal.nzhead (Decimal.D0 u)) eqn:E; try discriminate; try contradiction.
  injection Hu as ->. clear L E.
  apply (f_equal (fun x => N.of_uint x)) in H.
  change (N.of_uint (Pos.to_uint p)) with (Pos.of_uint (Pos.to_uint p)) in H.
  rewrite DecimalPos.Unsigned.of_to in H. discriminate H.
Qed.

Lemma int_ok_dec n : int_ok (dec_N n) = true.
Proof.
  destruct n as [|p]; [reflexivity|]. unfold dec_N. cbn [N.to_uint].
  destruct (Pos.to_uint p) eqn:E;
    try (destruct u; reflexivity).
  - exfalso. apply (to_uint_nonnil (N.pos p)). exact E.
  - exfalso. exact (pos_to_uint_D0 _ _ E).
Qed.

Definition number_tail (sign i s2 : str) : option (str * str) :=
  let frac :=
    match s2 with
    | p :: r => if ceqb p "."%char then
                  let '(f, r') := span_digits r in
                  match f with [] => None | _ => Some (p :: f, r') end
                else Some ([], s2)
    | [] => Some ([], s2)
    end in
  match frac with
  | None => None
  | Some (fr, s3) =>
    let exp :=
      match s3 with
      | e :: r =>
        if ceqb e "e"%char || ceqb e "E"%char then
          let '(sg, r1) := match r with
                           | g :: r' => if ceqb g "+"%char || ceqb g "-"%char then ([g], r') else ([], r)
                           | [] => ([], r) end in
          let '(x, r2) := span_digits r1 in
          match x with [] => None | _ => Some (e :: sg ++ x, r2) end
        else Some ([], s3)
      | [] => Some ([], s3)
      end in
    match exp with
    | None => None
    | Some (ex, s4) => Some (sign ++ i ++ fr ++ ex, s4)
    end
  end.

Lemma number_tail_stop sign i r : stop r = true -> number_tail sign i r = Some (sign ++ i, r).
Proof.
  intro H. unfold number_tail. destruct r as [|c r].
  - rewrite !app_nil_r. reflexivity.
  - cbn [stop] in H. apply negb_true_iff in H. apply orb_false_iff in H as [H HE].
    apply orb_false_iff in H as [H He]. apply orb_false_iff in H as [_ Hdot].
    rewrite Hdot. cbv zeta beta iota. rewrite He, HE. cbn [orb]. rewrite !app_nil_r. reflexivity.
Qed.

Lemma lex_number_dec_N n r : stop r = true -> lex_number (dec_N n ++ r) = Some (dec_N n, r).
Proof.
  intro H. destruct (dec_N_head n) as (c & t & E & Hc).
  unfold lex_number. rewrite E. cbn [app].
  rewrite (ceqb_neq c "-"%char) by (apply digit_not_sign; exact Hc).
  change (c :: t ++ r) with ((c :: t) ++ r). rewrite <- E.
  rewrite span_digits_app by (apply dec_N_digits || exact H).
  rewrite int_ok_dec. cbn [negb].
  apply (number_tail_stop [] (dec_N n)). exact H.
Qed.

Lemma lex_number_dec_Z z r : stop r = true -> lex_number (dec_Z z ++ r) = Some (dec_Z z, r).
Proof.
  intro H. destruct z as [|p|p]; try (apply lex_number_dec_N; exact H).
  unfold dec_Z. cbn [app]. unfold lex_number. change (ceqb "-" "-") with true. cbv iota.
  rewrite span_digits_app by (apply dec_N_digits || exact H).
  rewrite int_ok_dec. cbn [negb].
  apply (number_tail_stop ["-"%char] (dec_N (N.pos p))). exact H.
Qed.

Lemma dec_Z_head z : exists c t, dec_Z z = c :: t /\ (is_digit c = true \/ c = "-"%char).
Proof.
  destruct z as [|p|p]; unfold dec_Z.
  - destruct (dec_N_head (Z.to_N 0)) as (c & t & E & H); eauto.
  - destruct (dec_N_head (Z.to_N (Z.pos p))) as (c & t & E & H); eauto.
  - eauto.
Qed.

(** A compact text starts with a character that is neither a blank nor a closing bracket. *)
Definition start_ok (c : ascii) : bool :=
  negb (is_ws c || ceqb c "]"%char || ceqb c "}"%char || ceqb c ","%char || ceqb c ":"%char).

Lemma digit_start c : is_digit c = true -> start_ok c = true.
Proof.
  assert (H : forall c, (if is_digit c then start_ok c else true) = true) by (apply bytes_forallb; vm_compute; reflexivity).
  intro Hc. specialize (H c). rewrite Hc in H. exact H.
Qed.

Lemma enc_start t v : enc t v -> exists c r, t = c :: r /\ start_ok c = true.
Proof.
  destruct 1; try (eexists _, _; split; [reflexivity|vm_compute; reflexivity]).
  - destruct (dec_Z_head z) as (c & r & E & [H| ->]); rewrite E; eexists _, _; (split; [reflexivity|]).
    + apply digit_start; exact H.
    + reflexivity.
Qed.

Lemma enc_elems_start t l : enc_elems t l -> exists c r, t = c :: r /\ start_ok c = true.
Proof.
  destruct 1; destruct (enc_start _ _ H) as (c & r & -> & Hc); eexists _, _; (split; [reflexivity|exact Hc]).
Qed.

Lemma start_not_ws c r : start_ok c = true -> skip_ws (c :: r) = c :: r.
Proof.
  unfold start_ok; intro H. cbn [skip_ws]. destruct (is_ws c); [discriminate|reflexivity].
Qed.

Lemma start_not c d : start_ok c = true -> start_ok d = false -> ceqb c d = false.
Proof. intros H1 H2. apply ceqb_neq. intros ->. congruence. Qed.

Lemma digit_facts c : is_digit c = true ->
  (is_ws c || ceqb c quote || ceqb c "["%char || ceqb c "{"%char || ceqb c "n"%char || ceqb c "t"%char || ceqb c "f"%char) = false.
Proof.
  assert (H : forall c, (if is_digit c then negb (is_ws c || ceqb c quote || ceqb c "["%char || ceqb c "{"%char || ceqb c "n"%char || ceqb c "t"%char || ceqb c "f"%char) else true) = true)
    by (apply bytes_forallb; vm_compute; reflexivity).
  intro Hc. specialize (H c). rewrite Hc in H. apply negb_true_iff in H. exact H.
Qed.

Lemma num_start_facts c : is_digit c = true \/ c = "-"%char ->
  is_ws c = false /\ ceqb c quote = false /\ ceqb c "["%char = false /\ ceqb c "{"%char = false /\
  ceqb c "n"%char = false /\ ceqb c "t"%char = false /\ ceqb c "f"%char = false.
Proof.
  intros [H| ->]; [|repeat split; reflexivity].
  apply digit_facts in H. do 6 (apply orb_false_iff in H as [H ?]). repeat split; assumption.
Qed.

Lemma ceqb_sym a b : ceqb a b = ceqb b a.
Proof. unfold ceqb. apply Ascii.eqb_sym. Qed.

Lemma pval_num fuel z rest : stop rest = true ->
  pval (S fuel) (dec_Z z ++ rest) = Some (JNum (dec_Z z), rest).
Proof.
  intro H. destruct (dec_Z_head z) as (c & r & E & Hc).
  pose proof (lex_number_dec_Z z rest H) as HL.
  destruct (num_start_facts c Hc) as (H1 & H2 & H3 & H4 & H5 & H6 & H7).
  cbn [pval]. rewrite E in *. cbn [app] in *. cbn [skip_ws]. rewrite H1, H2, H3, H4.
  unfold B. cbn [list_ascii_of_string has_prefix].
  fold (ceqb "n"%char c) (ceqb "t"%char c) (ceqb "f"%char c).
  rewrite !(ceqb_sym _ c), H5, H6, H7. cbn [andb].
  rewrite HL. reflexivity.
Qed.

Lemma lex_app tk r1 r2 k : enc_chars tk k -> lex_string ((tk ++ quote :: r1) ++ r2) = Some (k, r1 ++ r2).
Proof. intro H. rewrite <- app_assoc. cbn [app]. apply lex_enc_chars; exact H. Qed.

Lemma app_cons_assoc {A} (a : list A) x b c : (a ++ x :: b) ++ c = a ++ x :: (b ++ c).
Proof. rewrite <- app_assoc. reflexivity. Qed.

Local Open Scope nat_scope.

Lemma enc_parse :
  (forall t v, enc t v -> forall fuel rest, 2 * length t <= fuel -> stop rest = true ->
     pval fuel (t ++ rest) = Some (v, rest)) /\
  (forall t l, enc_elems t l -> forall fuel rest, 2 * length t <= fuel ->
     pelems fuel (t ++ rest) = Some (l, rest)) /\
  (forall t l, enc_members t l -> forall fuel rest, 2 * length t <= fuel ->
     pmembers fuel (t ++ rest) = Some (l, rest)).
Proof.
  apply enc_mutind.
  - intros [|fuel] rest Hf Hr; [cbn in Hf; lia|reflexivity].
  - intros [|fuel] rest Hf Hr; [cbn in Hf; lia|reflexivity].
  - intros [|fuel] rest Hf Hr; [cbn in Hf; lia|reflexivity].
  - intros z [|fuel] rest Hf Hr.
    + destruct (dec_Z_head z) as (c & r & E & _). rewrite E in Hf. cbn in Hf. lia.
    + apply pval_num; exact Hr.
  - intros t s H [|fuel] rest Hf Hr; [cbn in Hf; lia|].
    cbn [pval app]. cbn [skip_ws]. change (is_ws quote) with false. cbv iota.
    rewrite ceqb_refl, (lex_app _ _ _ _ H). reflexivity.
  - intros [|fuel] rest Hf Hr; [cbn in Hf; lia|reflexivity].
  - intros t l H IH [|fuel] rest Hf Hr; [cbn in Hf; lia|].
    destruct (enc_elems_start _ _ H) as (c & r & E & Hc).
    cbn [pval app skip_ws]. change (is_ws "[") with false. change (ceqb "[" quote) with false.
    change (ceqb "[" "[") with true. cbv iota.
    rewrite E. cbn [app]. rewrite start_not_ws by exact Hc.
    rewrite (start_not c "]") by (exact Hc || reflexivity).
    change (c :: r ++ rest) with ((c :: r) ++ rest). rewrite <- E, IH; [reflexivity|].
    cbn [length] in Hf; lia.
  - intros [|fuel] rest Hf Hr; [cbn in Hf; lia|reflexivity].
  - intros t l H IH [|fuel] rest Hf Hr; [cbn in Hf; lia|].
    assert (exists r, t = quote :: r) as [r E] by (destruct H; eexists; reflexivity).
    cbn [pval app skip_ws]. change (is_ws "{") with false. change (ceqb "{" quote) with false.
    change (ceqb "{" "[") with false. change (ceqb "{" "{") with true. cbv iota.
    rewrite E. cbn [app skip_ws]. change (is_ws quote) with false. cbv iota.
    change (ceqb quote "}") with false. cbv iota.
    change (quote :: r ++ rest) with ((quote :: r) ++ rest). rewrite <- E, IH; [reflexivity|].
    cbn [length] in Hf; lia.
  - intros t v H IH [|fuel] rest Hf; [destruct (enc_start _ _ H) as (c & r & -> & _); cbn in Hf; lia|].
    rewrite app_length in Hf. cbn in Hf.
    cbn [pelems]. rewrite <- app_assoc, IH; [|lia|reflexivity].
    cbn. reflexivity.
  - intros t v t' l H IH H' IH' [|fuel] rest Hf;
      [destruct (enc_start _ _ H) as (c & r & -> & _); cbn in Hf; lia|].
    rewrite app_length in Hf. cbn [length] in Hf.
    cbn [pelems]. rewrite app_cons_assoc, IH; [|lia|reflexivity].
    cbn [skip_ws]. change (is_ws ",") with false. cbv iota.
    change (ceqb "," "]") with false. change (ceqb "," ",") with true. cbv iota.
    rewrite IH'; [reflexivity|lia].
  - intros tk k t v Hk H IH [|fuel] rest Hf; [cbn in Hf; lia|].
    cbn [length] in Hf. rewrite app_length in Hf. cbn [length] in Hf. rewrite app_length in Hf. cbn in Hf.
    cbn [pmembers app skip_ws]. change (is_ws quote) with false. cbv iota. rewrite ceqb_refl.
    rewrite (lex_app _ _ _ _ Hk). cbn [app skip_ws]. change (is_ws ":") with false. cbv iota.
    change (ceqb ":" ":") with true. cbv iota.
    rewrite <- app_assoc, IH; [|lia|reflexivity].
    cbn. reflexivity.
  - intros tk k t v t' l Hk H IH H' IH' [|fuel] rest Hf; [cbn in Hf; lia|].
    cbn [length] in Hf. rewrite app_length in Hf. cbn [length] in Hf. rewrite app_length in Hf. cbn [length] in Hf.
    cbn [pmembers app skip_ws]. change (is_ws quote) with false. cbv iota. rewrite ceqb_refl.
    rewrite (lex_app _ _ _ _ Hk). cbn [app skip_ws]. change (is_ws ":") with false. cbv iota.
    change (ceqb ":" ":") with true. cbv iota.
    rewrite app_cons_assoc, IH; [|lia|reflexivity].
    cbn [skip_ws]. change (is_ws ",") with false. cbv iota.
    change (ceqb "," "}") with false. change (ceqb "," ",") with true. cbv iota.
    rewrite IH'; [reflexivity|lia].
Qed.

Theorem json_parse_enc t v : enc t v -> json_parse t = Some v.
Proof.
  intro H. unfold json_parse. rewrite <- (app_nil_r t) at 2.
  destruct enc_parse as (P & _ & _). rewrite (P t v H); [reflexivity|lia|reflexivity].
Qed.

Lemma enc_chars_app t v t' v' : enc_chars t v -> enc_chars t' v' -> enc_chars (t ++ t') (v ++ v').
Proof.
  induction 1 as [|a b a' b' H1 H2 IH]; intro H; [exact H|].
  rewrite <- !app_assoc. constructor; auto.
Qed.
