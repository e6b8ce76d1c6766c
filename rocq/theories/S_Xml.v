(** Specification vocabulary of C43: the texts of tags and what they say. *)
From Verif Require Import Prelude M_Xml.
Local Open Scope Z_scope.

Definition spaces (n : nat) : list Z := repeat 32 n.

(** An attribute text: blanks, name, '=', characters skipped up to a quote, the quoted value. *)
Record attribute := Attribute { a_gap : nat; a_name : list Z; a_skip : list Z; a_quote : Z; a_value : list Z }.
Definition attribute_text (a : attribute) : list Z :=
  spaces (a_gap a) ++ a_name a ++ [61] ++ a_skip a ++ [a_quote a] ++ a_value a ++ [a_quote a].
Definition attribute_ok (a : attribute) : Prop :=
  (exists c r, a_name a = c :: r /\ c <> 32 /\ c <> 47 /\ c <> 62 /\ ~ In 61 r) /\
  ~ In 34 (a_skip a) /\ ~ In 39 (a_skip a) /\ (a_quote a = 34 \/ a_quote a = 39) /\ ~ In (a_quote a) (a_value a).

(** How a tag ends: '>' with anything after it, possibly preceded by '/' and skipped characters. *)
Inductive ending := Close (after : list Z) | SlashClose (skip after : list Z).
Definition ending_text (e : ending) : list Z :=
  match e with Close r => 62 :: r | SlashClose s r => 47 :: s ++ 62 :: r end.
Definition ending_ok (e : ending) : Prop := match e with Close _ => True | SlashClose s _ => ~ In 62 s end.

(** What follows the name: the ending at once, or a blank, attributes, blanks and the ending. *)
Inductive rest := Tight (e : ending) | Spaced (atts : list attribute) (gap : nat) (e : ending).
Definition rest_text (r : rest) : list Z :=
  match r with
  | Tight e => ending_text e
  | Spaced atts gap e => 32 :: concat (map attribute_text atts) ++ spaces gap ++ ending_text e
  end.
Definition rest_ok (r : rest) : Prop :=
  match r with Tight e => ending_ok e | Spaced atts _ e => Forall attribute_ok atts /\ ending_ok e end.

(** A tag: blanks, '<', blanks, possibly '/' and blanks, the name, the rest. *)
Record text := Text { lead : nat; gap1 : nat; slash : option nat; name : list Z; after_name : rest }.
Definition tag_text (x : text) : list Z :=
  spaces (lead x) ++ [60] ++ spaces (gap1 x) ++ match slash x with None => [] | Some g => 47 :: spaces g end ++
  name x ++ rest_text (after_name x).
Definition tag_ok (x : text) : Prop :=
  (exists c r, name x = c :: r /\ c <> 32 /\ (slash x = None -> c <> 47) /\ ~ In 32 r /\ ~ In 47 r /\ ~ In 62 r) /\
  rest_ok (after_name x).

(** The last value given to an attribute. *)
Fixpoint last_value (k : list Z) (atts : list attribute) : option (list Z) :=
  match atts with
  | [] => None
  | a :: atts => match last_value k atts with
                 | Some v => Some v
                 | None => if string_dec (a_name a) k then Some (a_value a) else None
                 end
  end.
Definition attributes (x : text) : list attribute := match after_name x with Tight _ => [] | Spaced atts _ _ => atts end.

(** The kind reported. *)
Definition kind (x : text) : tag_type :=
  match after_name x with
  | Spaced _ _ (SlashClose _ _) => SELF_CLOSING
  | _ => match slash x with Some _ => END | None => START end
  end.
