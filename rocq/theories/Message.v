(** * Message: the text of an error

    src/error.rs:51-55 and src/internal_error.rs:23-27: [Display] writes the derived [Debug] form of the value
    ([#[derive(Debug)]], src/error.rs:8-49, src/internal_error.rs:3-21, src/ast1/scopevariant.rs:4-12).  What the
    derive and the standard library's [Debug] of [u32], [char] and [str] write is modelled here.  Which characters
    outside the cases named below are written as they are ("printable and no combining mark") is a table of the
    standard library: it is a parameter, and the theorems hold for every table. *)
From Verif Require Import Base Ast1.

(** Standard library, for src/error.rs:51-55: Rust's lower-case positional notation of an unsigned integer, in base [b]. *)
Definition digit (d : N) : char := if d <? 10 then 48 + d else 87 + d.
(** the same, with fuel; standard library, for src/error.rs:51-55 *)
Fixpoint digits_fuel (fuel : nat) (b n : N) : str :=
  match fuel with
  | O => []
  | S fuel => if n <? b then [digit n] else digits_fuel fuel b (n / b) ++ [digit (n mod b)]
  end.
(** the same; standard library, for src/error.rs:51-55 *)
Definition in_base (b n : N) : str := digits_fuel (S (S (N.to_nat (N.log2 n)))) b n.
(** [<u32 as Debug>::fmt], for src/error.rs:51-55 *)
Definition decimal : N -> str := in_base 10.

(** Rust [char::escape_debug_ext], for src/error.rs:51-55 and src/internal_error.rs:23-27; [quote] is the delimiter: 34 for [str], 39 for [char]. *)
Definition escape (plain : char -> bool) (quote c : char) : str :=
  if c =? 0 then S! "\0"
  else if c =? 9 then S! "\t"
  else if c =? 13 then S! "\r"
  else if c =? 10 then S! "\n"
  else if (c =? c_bslash) || (c =? quote) then [c_bslash; c]
  else if plain c then [c]
  else S! "\u{" ++ in_base 16 c ++ S! "}".
(** Rust [<str as Debug>::fmt], for src/error.rs:51-55. *)
Definition debug_str (plain : char -> bool) (s : str) : str := [34] ++ flat_map (escape plain 34) s ++ [34].
(** Rust [<char as Debug>::fmt], for src/internal_error.rs:23-27. *)
Definition debug_char (plain : char -> bool) (c : char) : str := [39] ++ escape plain 39 c ++ [39].

(** src/ast1/scopevariant.rs:4-12 *)
Definition debug_sv (v : sv1) : str :=
  match v with Curly1 => S! "Curly" | Round1 => S! "Round" | Square1 => S! "Square" end.
(** src/internal_error.rs:3-21 *)
Definition debug_internal (plain : char -> bool) (e : internal_error) : str :=
  match e with
  | UnsanitisedCharInString c => S! "UnsanitisedCharInString(" ++ debug_char plain c ++ S! ")"
  | IncorrectChunkLineNumber expected got =>
      S! "IncorrectChunkLineNumber { expected: " ++ decimal expected ++ S! ", got: " ++ decimal got ++ S! " }"
  | ParagraphBreakTooShort => S! "ParagraphBreakTooShort"
  | ParagraghBreakNonwhitespace => S! "ParagraghBreakNonwhitespace"
  | BeginCommand => S! "BeginCommand"
  | EndCommand => S! "EndCommand"
  | UnbrokenParagraph => S! "UnbrokenParagraph"
  end.
(** src/error.rs:22-49 *)
Definition debug_type (plain : char -> bool) (t : error_type) : str :=
  match t with
  | UnexpectedClosing v => S! "UnexpectedClosing(" ++ debug_sv v ++ S! ")"
  | UnclosedArgument v => S! "UnclosedArgument(" ++ debug_sv v ++ S! ")"
  | UnclosedScope v => S! "UnclosedScope(" ++ debug_sv v ++ S! ")"
  | NoEnvironmentLabel => S! "NoEnvironmentLabel"
  | UnexpectedEnd s => S! "UnexpectedEnd(" ++ debug_str plain s ++ S! ")"
  | UnclosedEnvironment s => S! "UnclosedEnvironment(" ++ debug_str plain s ++ S! ")"
  | TooManyArgsEnd => S! "TooManyArgsEnd"
  | TooManyArgsDocumentClass => S! "TooManyArgsDocumentClass"
  | DoubleDocumentClass => S! "DoubleDocumentClass"
  | UnexpectedMathsEnd => S! "UnexpectedMathsEnd"
  | UnclosedMaths => S! "UnclosedMaths"
  | Internal e => S! "Internal(" ++ debug_internal plain e ++ S! ")"
  end.
(** src/error.rs:8-13 with 51-55: the raw identifier [r#type] is written "type". *)
Definition show_error (plain : char -> bool) (e : error) : str :=
  S! "Error { line: " ++ decimal (err_line e) ++ S! ", type: " ++ debug_type plain (err_type e) ++ S! " }".
(** src/internal_error.rs:23-27 *)
Definition show_internal : (char -> bool) -> internal_error -> str := debug_internal.

(** ** Positional notation *)
Definition undigit (c : char) : N := if c <? 58 then c - 48 else c - 87.
Definition value (b : N) (s : str) : N := fold_left (fun v c => b * v + undigit c) s 0.
Definition is_digit (c : char) : Prop := 48 <= c <= 57 \/ 97 <= c <= 102.
Lemma digit_is d : d < 16 -> is_digit (digit d).
Proof. intros H. unfold digit, is_digit. destruct (N.ltb_spec d 10); lia. Qed.
Lemma undigit_digit d : d < 16 -> undigit (digit d) = d.
Proof.
  intros H. unfold undigit, digit. destruct (N.ltb_spec d 10).
  - destruct (N.ltb_spec (48 + d) 58); lia.
  - destruct (N.ltb_spec (87 + d) 58); lia.
Qed.
Lemma digits_S fuel b n : digits_fuel (S fuel) b n = if n <? b then [digit n] else digits_fuel fuel b (n / b) ++ [digit (n mod b)].
Proof. reflexivity. Qed.
Lemma digits_spec b fuel : 2 <= b <= 16 -> forall n, n < 2 ^ N.of_nat fuel ->
  value b (digits_fuel (S fuel) b n) = n /\ Forall is_digit (digits_fuel (S fuel) b n).
Proof.
  intros Hb. induction fuel as [|fuel IH]; intros n Hn; rewrite digits_S.
  - change (2 ^ N.of_nat 0) with 1 in Hn. assert (n = 0) as -> by lia. destruct (N.ltb_spec 0 b); [|lia]. split; [unfold value; cbn [fold_left]; rewrite undigit_digit by lia; lia|constructor; [apply digit_is; lia|constructor]].
  - destruct (N.ltb_spec n b).
    + split; [|constructor; [apply digit_is; lia|constructor]]. unfold value. cbn [fold_left]. rewrite undigit_digit by lia. lia.
    + assert (K : n / b < 2 ^ N.of_nat fuel).
      { rewrite Nat2N.inj_succ, N.pow_succ_r' in Hn. apply N.div_lt_upper_bound; [lia|]. nia. }
      pose proof (N.mod_lt n b ltac:(lia)) as Hm. pose proof (N.div_mod n b ltac:(lia)) as Hd.
      destruct (IH (n / b) K) as [I1 I2]. split.
      * unfold value in *. rewrite fold_left_app. cbn [fold_left]. rewrite I1, undigit_digit by lia. lia.
      * apply Forall_app. split; [exact I2|constructor; [apply digit_is; lia|constructor]].
Qed.
Lemma in_base_spec b n : 2 <= b <= 16 -> value b (in_base b n) = n /\ Forall is_digit (in_base b n).
Proof.
  intros Hb. apply digits_spec; [exact Hb|]. rewrite Nat2N.inj_succ, N2Nat.id. destruct (N.eq_dec n 0) as [-> |Hn]; [vm_compute; reflexivity|].
  apply N.log2_spec. lia.
Qed.
Lemma split_stop (D : char -> Prop) u : forall v x y r r', Forall D u -> Forall D v -> ~ D x -> ~ D y -> u ++ x :: r = v ++ y :: r' -> u = v /\ x :: r = y :: r'.
Proof.
  induction u as [|c u IH]; intros [|d v] x y r r' Hu Hv Hx Hy E; cbn in E.
  - auto.
  - injection E as -> _. inversion Hv. contradiction.
  - injection E as <- _. inversion Hu. contradiction.
  - injection E as <- E. inversion Hu. inversion Hv. subst. destruct (IH v x y r r') as [-> E']; auto.
Qed.
Lemma in_base_stop b n m x y r r' : 2 <= b <= 16 -> ~ is_digit x -> ~ is_digit y -> in_base b n ++ x :: r = in_base b m ++ y :: r' -> n = m /\ x :: r = y :: r'.
Proof.
  intros Hb Hx Hy E. destruct (in_base_spec b n Hb) as [V1 D1], (in_base_spec b m Hb) as [V2 D2].
  destruct (split_stop is_digit _ _ _ _ _ _ D1 D2 Hx Hy E) as [E1 E2]. split; [|exact E2]. rewrite <- V1, <- V2, E1. reflexivity.
Qed.
(** ** Escapes *)
Ltac lits H := repeat match type of H with context [of_string ?s] => let x := eval vm_compute in (of_string s) in change (of_string s) with x in H end; cbn [app] in H.
Ltac nodigit := let K := fresh in intro K; unfold is_digit in K; vm_compute in K; intuition discriminate.
Definition unescape (x : char) : char := if x =? 48 then 0 else if x =? 116 then 9 else if x =? 114 then 13 else if x =? 110 then 10 else x.
Lemma escape_cases plain q c : q = 34 \/ q = 39 ->
  (escape plain q c = [c] /\ c <> c_bslash /\ c <> q /\ c <> 10) \/
  (exists x, escape plain q c = [c_bslash; x] /\ unescape x = c /\ x <> 117 /\ x <> 10) \/
  escape plain q c = [c_bslash; 117; 123] ++ in_base 16 c ++ [125].
Proof.
  intros Hq. unfold escape.
  destruct (N.eqb_spec c 0) as [-> |N0]; [right; left; exists 48; repeat split; discriminate|].
  destruct (N.eqb_spec c 9) as [-> |N1]; [right; left; exists 116; repeat split; discriminate|].
  destruct (N.eqb_spec c 13) as [-> |N2]; [right; left; exists 114; repeat split; discriminate|].
  destruct (N.eqb_spec c 10) as [-> |N3]; [right; left; exists 110; repeat split; discriminate|].
  destruct (N.eqb_spec c c_bslash) as [-> |N4]; [right; left; exists c_bslash; repeat split; discriminate|]. cbn [orb].
  destruct (N.eqb_spec c q) as [-> |N5]; [right; left; exists q; destruct Hq as [-> | ->]; repeat split; discriminate|].
  destruct (plain c); [left; auto|right; right; reflexivity].
Qed.
Lemma escape_inj plain q c d r r' : q = 34 \/ q = 39 -> escape plain q c ++ r = escape plain q d ++ r' -> c = d /\ r = r'.
Proof.
  intros Hq E.
  destruct (escape_cases plain q c Hq) as [(F & N1 & _)|[(x & F & U1 & N1 & _)|F]], (escape_cases plain q d Hq) as [(F' & N2 & _)|[(y & F' & U2 & N2 & _)|F']]; rewrite F, F' in E; cbn [app] in E.
  - injection E as -> ->. auto.
  - injection E as -> _. contradiction.
  - injection E as -> _. contradiction.
  - injection E as <- _. contradiction.
  - injection E as <- E. subst. auto.
  - injection E as -> _. contradiction.
  - injection E as <- _. contradiction.
  - injection E as <- _. contradiction.
  - injection E as E. rewrite <- !app_assoc in E. cbn [app] in E. apply in_base_stop in E; [|lia|nodigit|nodigit]. destruct E as [-> E]. injection E as ->. auto.
Qed.
Lemma escape_not_quote plain q c r r' : q = 34 \/ q = 39 -> escape plain q c ++ r = q :: r' -> False.
Proof.
  intros Hq E. assert (Q : q <> c_bslash) by (destruct Hq as [-> | ->]; discriminate).
  destruct (escape_cases plain q c Hq) as [(F & N1 & N2 & _)|[(x & F & U1 & N1 & _)|F]]; rewrite F in E; cbn [app] in E; injection E; intros; congruence.
Qed.
Lemma debug_str_inj plain s : forall t r r', flat_map (escape plain 34) s ++ 34 :: r = flat_map (escape plain 34) t ++ 34 :: r' -> s = t /\ r = r'.
Proof.
  induction s as [|c s IH]; intros [|d t] r r' E; cbn [flat_map app] in E.
  - injection E as ->. auto.
  - exfalso. rewrite <- app_assoc in E. symmetry in E. eapply escape_not_quote; [left; reflexivity|exact E].
  - exfalso. rewrite <- app_assoc in E. eapply escape_not_quote; [left; reflexivity|exact E].
  - rewrite <- !app_assoc in E. apply escape_inj in E; [|now left]. destruct E as [-> E]. apply IH in E. destruct E as [-> ->]. auto.
Qed.
Lemma debug_sv_inj v w r r' : debug_sv v ++ r = debug_sv w ++ r' -> v = w /\ r = r'.
Proof. intros E. destruct v, w; unfold debug_sv in E; lits E; try discriminate E; injection E as ->; auto. Qed.
Lemma internal_inj plain e e' r r' : debug_internal plain e ++ r = debug_internal plain e' ++ r' -> e = e' /\ r = r'.
Proof.
  intros E. destruct e, e'; unfold debug_internal, debug_char, decimal in E; lits E; try discriminate E; try (injection E as ->; auto; fail).
  - injection E as E. rewrite <- !app_assoc in E. apply escape_inj in E; [|now right]. destruct E as [-> E]. cbn [app] in E. injection E as ->. auto.
  - injection E as E. rewrite <- !app_assoc in E. cbn [app] in E. apply in_base_stop in E; [|lia|nodigit|nodigit]. destruct E as [-> E].
    injection E as E. rewrite <- !app_assoc in E. cbn [app] in E. apply in_base_stop in E; [|lia|nodigit|nodigit]. destruct E as [-> E]. injection E as ->. auto.
Qed.
Lemma type_inj plain t t' r r' : debug_type plain t ++ r = debug_type plain t' ++ r' -> t = t' /\ r = r'.
Proof.
  intros E. destruct t, t'; unfold debug_type, debug_str in E; lits E; try discriminate E; try (injection E as ->; auto; fail).
  1,2,3: injection E as E; rewrite <- !app_assoc in E; apply debug_sv_inj in E; destruct E as [-> E]; cbn [app] in E; injection E as ->; auto.
  1,2: injection E as E; rewrite <- !app_assoc in E; cbn [app] in E; apply debug_str_inj in E; destruct E as [-> E]; injection E as ->; auto.
  injection E as E. rewrite <- !app_assoc in E. apply internal_inj in E. destruct E as [-> E]. cbn [app] in E. injection E as ->. auto.
Qed.
Theorem show_internal_inj plain e e' : show_internal plain e = show_internal plain e' -> e = e'.
Proof. intros E. apply (internal_inj plain e e' [] []). now rewrite !app_nil_r. Qed.
Theorem show_error_inj plain e e' : show_error plain e = show_error plain e' -> e = e'.
Proof.
  destruct e as [l t], e' as [l' t']. unfold show_error, decimal. cbn [err_line err_type]. intros E. lits E. injection E as E.
  apply in_base_stop in E; [|lia|nodigit|nodigit]. destruct E as [-> E]. injection E as E. apply type_inj in E. destruct E as [-> _]. reflexivity.
Qed.

(** ** One line *)
Definition flat (s : str) : Prop := Forall (fun c => c <> 10) s.
Lemma flat_app s t : flat (s ++ t) <-> flat s /\ flat t. Proof. apply Forall_app. Qed.
Lemma flat_base b n : 2 <= b <= 16 -> flat (in_base b n).
Proof. intros H. destruct (in_base_spec b n H) as [_ F]. eapply Forall_impl; [|exact F]. intros c K ->. unfold is_digit in K. lia. Qed.
Lemma flat_escape plain q c : q = 34 \/ q = 39 -> flat (escape plain q c).
Proof.
  intros Hq. destruct (escape_cases plain q c Hq) as [(-> & _ & _ & N1)|[(x & -> & _ & _ & N1)| ->]].
  - repeat constructor; exact N1.
  - repeat constructor; [discriminate|exact N1].
  - apply flat_app. split; [repeat constructor; discriminate|]. apply flat_app. split; [apply flat_base; lia|repeat constructor; discriminate].
Qed.
Ltac flats := unfold flat; cbv; repeat constructor; discriminate.
Lemma flat_internal plain e : flat (debug_internal plain e).
Proof.
  destruct e; unfold debug_internal; rewrite ?flat_app; repeat split; try (apply flat_base; lia); try flats.
  unfold debug_char. rewrite !flat_app. repeat split; [flats|apply flat_escape; auto|flats].
Qed.
Lemma flat_str plain s : flat (debug_str plain s).
Proof.
  unfold debug_str. rewrite !flat_app. repeat split; [flats| |flats]. induction s as [|c s IH]; [constructor|]. cbn [flat_map]. apply flat_app. split; [apply flat_escape; auto|exact IH].
Qed.
Lemma flat_error plain e : flat (show_error plain e).
Proof.
  destruct e as [l t]. unfold show_error. cbn [err_line err_type]. rewrite !flat_app. split; [flats|]. split; [apply flat_base; lia|]. split; [flats|]. split; [|flats].
  destruct t; unfold debug_type; rewrite ?flat_app; repeat split; try apply flat_str; try apply flat_internal; try (destruct v; flats); flats.
Qed.
(** ** Reading *)
Lemma digits_dec fuel : forall n, Forall (fun c => 48 <= c <= 57) (digits_fuel fuel 10 n).
Proof.
  assert (D : forall d, d < 10 -> 48 <= digit d <= 57). { intros d H. unfold digit. destruct (N.ltb_spec d 10); lia. }
  induction fuel as [|fuel IH]; intros n; [constructor|]. rewrite digits_S. destruct (N.ltb_spec n 10); [constructor; [now apply D|constructor]|].
  apply Forall_app. split; [apply IH|]. constructor; [|constructor]. apply D. apply N.mod_lt. lia.
Qed.
Lemma decimal_spec n : (forall c, In c (decimal n) -> 48 <= c <= 57) /\ fold_left (fun v c => 10 * v + (c - 48)) (decimal n) 0 = n.
Proof.
  assert (F : Forall (fun c => 48 <= c <= 57) (decimal n)) by apply digits_dec.
  split; [now apply Forall_forall|]. destruct (in_base_spec 10 n ltac:(lia)) as [V _]. rewrite <- V at 2. unfold value. change (in_base 10 n) with (decimal n).
  generalize 0. induction F as [|c s Hc F IH]; intros v; [reflexivity|]. cbn [fold_left]. rewrite IH. f_equal. f_equal. unfold undigit. destruct (N.ltb_spec c 58); lia.
Qed.
Lemma plain_str plain s : (forall c, In c s -> plain c = true /\ c <> 0 /\ c <> 9 /\ c <> 10 /\ c <> 13 /\ c <> 34 /\ c <> 92) -> flat_map (escape plain 34) s = s.
Proof.
  induction s as [|c s IH]; intros H; [reflexivity|]. cbn [flat_map]. rewrite IH by (intros d Hd; apply H; now right).
  destruct (H c (or_introl eq_refl)) as (P & N1 & N2 & N3 & N4 & N5 & N6). unfold escape, c_bslash. apply N.eqb_neq in N1, N2, N3, N4, N5, N6. now rewrite N1, N2, N3, N4, N5, N6, P.
Qed.
