(** Model of parse_tag, src/Omega_h_xml_lite.cpp:12-102.  A string is the list of its character codes. *)
From Verif Require Import Prelude.
Local Open Scope Z_scope.

Definition c_space := 32.  Definition c_lt := 60.  Definition c_gt := 62.  Definition c_slash := 47.
Definition c_eq := 61.     Definition c_dquote := 34.  Definition c_squote := 39.

(** src/Omega_h_xml_lite.hpp Tag; [attribs] is the std::map, kept as pairs with distinct names *)
Inductive tag_type := START | END | SELF_CLOSING.
Record tag := Tag { elem_name : list Z; type : tag_type; attribs : list (list Z * list Z) }.

Definition string_dec : forall a b : list Z, {a = b} + {a <> b} := list_eq_dec Z.eq_dec.
(** std::map::operator[] and assignment *)
Fixpoint assign (m : list (list Z * list Z)) (k v : list Z) : list (list Z * list Z) :=
  match m with
  | [] => [(k, v)]
  | (k', v') :: m => if string_dec k' k then (k, v) :: m else (k', v') :: assign m k v
  end.
Fixpoint lookup (m : list (list Z * list Z)) (k : list Z) : option (list Z) :=
  match m with
  | [] => None
  | (k', v) :: m => if string_dec k' k then Some v else lookup m k
  end.

(** The local variables of parse_tag *)
Record st := St { state : nat; t_name : list Z; t_type : tag_type; t_atts : list (list Z * list Z);
                  att_nm : list Z; att_val : list Z; quot : Z }.
Definition goto (s : st) (k : nat) : st := St k (t_name s) (t_type s) (t_atts s) (att_nm s) (att_val s) (quot s).
Definition push_name (s : st) (k : nat) (c : Z) : st := St k (t_name s ++ [c]) (t_type s) (t_atts s) (att_nm s) (att_val s) (quot s).
Definition set_type (s : st) (k : nat) (ty : tag_type) : st := St k (t_name s) ty (t_atts s) (att_nm s) (att_val s) (quot s).
Definition push_nm (s : st) (k : nat) (c : Z) : st := St k (t_name s) (t_type s) (t_atts s) (att_nm s ++ [c]) (att_val s) (quot s).
Definition push_val (s : st) (k : nat) (c : Z) : st := St k (t_name s) (t_type s) (t_atts s) (att_nm s) (att_val s ++ [c]) (quot s).
Definition set_quot (s : st) (k : nat) (c : Z) : st := St k (t_name s) (t_type s) (t_atts s) (att_nm s) (att_val s) c.
Definition set_att (s : st) (k : nat) : st := St k (t_name s) (t_type s) (assign (t_atts s) (att_nm s) (att_val s)) [] [] (quot s).

(** One pass of the loop, src/Omega_h_xml_lite.cpp:23-96; [None]: return false *)
Definition step (s : st) (c : Z) : option st :=
  match state s with
  | 0%nat => if c =? c_lt then Some (goto s 1) else if negb (c =? c_space) then None else Some s
  | 1%nat => if c =? c_slash then Some (set_type s 2 END)
             else if negb (c =? c_space) then Some (push_name s 3 c) else Some s
  | 2%nat => if negb (c =? c_space) then Some (push_name s 3 c) else Some s
  | 3%nat => if c =? c_space then Some (goto s 4)
             else if c =? c_slash then Some (goto s 8)
             else if c =? c_gt then Some (goto s 9)
             else Some (push_name s 3 c)
  | 4%nat => if c =? c_slash then Some (set_type s 8 SELF_CLOSING)
             else if c =? c_gt then Some (goto s 9)
             else if negb (c =? c_space) then Some (push_nm s 5 c)
             else Some s
  | 5%nat => if c =? c_eq then Some (goto s 6) else Some (push_nm s 5 c)
  | 6%nat => if (c =? c_dquote) || (c =? c_squote) then Some (set_quot s 7 c) else Some s
  | 7%nat => if c =? quot s then Some (set_att s 4) else Some (push_val s 7 c)
  | 8%nat => if c =? c_gt then Some (goto s 9) else Some s
  | _ => Some s
  end.
Fixpoint loop (s : st) (line : list Z) : option st :=
  match line with
  | [] => Some s
  | c :: line => match step s c with Some s => loop s line | None => None end
  end.

(** src/Omega_h_xml_lite.cpp:12-22,97-102; [None]: false is returned and tag_out is untouched *)
Definition parse_tag (line : list Z) : option tag :=
  match loop (St 0 [] START [] [] [] 0) line with
  | Some s => if (state s =? 9)%nat then Some (Tag (t_name s) (t_type s) (t_atts s)) else None
  | None => None
  end.

(** src/Omega_h_xml_lite.cpp:104-111 read_tag, on the line read *)
Definition read_tag (line : list Z) : res tag :=
  match parse_tag line with Some t => Ok t | None => Abort end.
