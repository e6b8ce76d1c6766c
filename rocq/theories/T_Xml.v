(** C43 tag parsing *)
From Verif Require Import Prelude M_Xml S_Xml P_Xml.
Local Open Scope Z_scope.

(** Every text of a tag parses to its name, its kind and the last value of every attribute. *)
Theorem xml_tag_parses : forall x, tag_ok x ->
  exists t, parse_tag (tag_text x) = Some t /\ elem_name t = name x /\ type t = kind x /\
  forall k, lookup (attribs t) k = last_value k (attributes x).
Proof. exact parse_text_spec. Qed.
Print Assumptions xml_tag_parses.

(** Nothing else is accepted. *)
Theorem xml_tag_only : forall line t, parse_tag line = Some t -> exists x, tag_ok x /\ tag_text x = line.
Proof. exact parse_sound. Qed.
Print Assumptions xml_tag_only.

(** read_tag returns or stops the program accordingly. *)
Theorem xml_read_tag : forall line, (exists x t, tag_ok x /\ tag_text x = line /\ read_tag line = Ok t) \/
  ((forall x, tag_ok x -> tag_text x <> line) /\ read_tag line = Abort).
Proof. exact read_tag_spec. Qed.
Print Assumptions xml_read_tag.

(** "<a/>" is reported as a start tag. *)
Theorem xml_self_closing_refuted : exists t, parse_tag [60; 97; 47; 62] = Some t /\ type t = START.
Proof. exact self_closing_lost. Qed.
Print Assumptions xml_self_closing_refuted.

(* " <Ab c="d'" e='' />" with a repeated attribute *)
Definition example_text : text := Text 1 0 None [65; 98]
  (Spaced [Attribute 0 [99] [] 34 [100; 39]; Attribute 1 [101] [] 39 []; Attribute 1 [99] [] 34 [120]] 1 (SlashClose [] [])).
Example xml_example_ok : tag_ok example_text.
Proof.
  split.
  - exists 65, [98]. cbn. repeat split; try discriminate; intuition discriminate.
  - cbn. split; [|intros []]. repeat constructor; cbn; try (intuition discriminate);
      [exists 99, []|exists 101, []|exists 99, []]; cbn; intuition discriminate.
Qed.
Example xml_example : parse_tag (tag_text example_text) = Some (Tag [65; 98] SELF_CLOSING [([99], [120]); ([101], [])]).
Proof. vm_compute. reflexivity. Qed.
(* an end tag with blanks *)
Example xml_example_end : parse_tag [60; 32; 47; 32; 65; 32; 62; 10] = Some (Tag [65] END []).
Proof. vm_compute. reflexivity. Qed.
