(** Characters of a text ([str::chars]), as their UTF-8 bytes, and [char::is_whitespace] (Rust standard library).
    Definitions and the basic facts about them. *)
From Coq Require Import List Arith Lia Bool.
From Verif Require Import Base ListFacts PieceTable PieceTableFacts Utf8 Utf8Spec Utf8Facts.
Import ListNotations.

Fixpoint chars_fuel (fuel : nat) (s : text) : list text :=
  match fuel, s with
  | S f, _ :: _ => firstn (fst (utf8_step s)) s :: chars_fuel f (skipn (fst (utf8_step s)) s)
  | _, _ => []
  end.
(** [str::chars]: defined on every text, meaningful on valid ones *)
Definition chars (s : text) : list text := chars_fuel (length s) s.

(** [char::is_whitespace]: the Unicode property White_Space *)
Definition is_whitespace (c : text) : bool :=
  match c with
  | [a] => between 9 13 a || (a =? 32)
  | [a; b] => (a =? 194) && ((b =? 133) || (b =? 160))                                   (* 0085, 00A0 *)
  | [a; b; d] =>
      ((a =? 225) && (b =? 154) && (d =? 128))                                           (* 1680 *)
      || ((a =? 226) && (b =? 128) && (between 128 138 d || (d =? 168) || (d =? 169) || (d =? 175)))  (* 2000-200A, 2028, 2029, 202F *)
      || ((a =? 226) && (b =? 129) && (d =? 159))                                        (* 205F *)
      || ((a =? 227) && (b =? 128) && (d =? 128))                                        (* 3000 *)
  | _ => false
  end.

Lemma chars_fuel_concat cs : Forall is_char cs -> forall f, length (concat cs) <= f -> chars_fuel f (concat cs) = cs.
Proof.
  induction 1 as [|c cs Hc F IH]; intros f L; [now destruct f|]. cbn [concat] in *. pose proof (char_nonempty c Hc) as N. rewrite app_length in L.
  destruct f as [|f]; [destruct c; [congruence|cbn [length] in L; lia]|]. destruct (c ++ concat cs) as [|b q] eqn:E; [destruct c; [congruence|discriminate]|].
  cbn [chars_fuel]. rewrite <- E. rewrite (step_char c (concat cs) Hc). cbn [fst].
  rewrite firstn_app, firstn_all, Nat.sub_diag, firstn_O, app_nil_r. rewrite skipn_app, skipn_all, Nat.sub_diag, skipn_O. cbn [app]. f_equal. apply IH.
  destruct c; [congruence|cbn [length] in L; lia].
Qed.
Lemma chars_concat cs : Forall is_char cs -> chars (concat cs) = cs.
Proof. intro F. now apply chars_fuel_concat. Qed.
Lemma chars_valid s : valid s -> Forall is_char (chars s) /\ concat (chars s) = s.
Proof. intros (cs & F & ->). rewrite chars_concat; auto. Qed.
Lemma chars_app a b : valid a -> valid b -> chars (a ++ b) = chars a ++ chars b.
Proof. intros (cs & F & ->) (ds & F' & ->). rewrite <- concat_app, !chars_concat; auto. now apply Forall_app. Qed.
