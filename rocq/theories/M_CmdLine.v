(** Model of the command line reader: src/Omega_h_cmdline.cpp and src/Omega_h_cmdline.hpp. *)
From Coq Require Import String.
From Verif Require Import Prelude.
Local Open Scope Z_scope.

(** A value that may be given: [CmdLineArg<T>], src/Omega_h_cmdline.hpp:12-37 and src/Omega_h_cmdline.cpp:45-90.  [None] means it
    is not parsed and [get] gives the default, [Some w] that the word [w] was given.  Simplification: the word stands for what
    [parse_arg] (:30-43) makes of it with std::atoi or std::atof or as it is; none of these can fail. *)
Record item := mk_item { it_name : string; it_word : option string }.
(** [CmdLineItem::parsed], src/Omega_h_cmdline.cpp:65. *)
Definition it_parsed (a : item) : bool := match it_word a with Some _ => true | None => false end.

(** [CmdLineFlag], src/Omega_h_cmdline.hpp:39-55.  Simplification: no description, which is only printed. *)
Record flag := mk_flag { f_name : string; f_parsed : bool; f_args : list item }.

(** [CmdLine], src/Omega_h_cmdline.hpp:57-85. *)
Record cmd := mk_cmd { c_args : list item; c_flags : list flag; c_nargs : nat; c_help : bool }.

(** [*p_argc] and the array [argv] of pointers to words; [None] is a null pointer. *)
Definition line := (Z * list (option string))%type.

(** Comparing or copying [argv[i]]: undefined for a null pointer. *)
Definition word (l : line) (i : Z) : res string :=
  x <- zget (snd l) i ;; match x with Some w => Ok w | None => UB end.

(** [shift], src/Omega_h_cmdline.cpp:25-28. *)
Definition shift (l : line) (i : Z) : res line :=
  let argc := fst l - 1 in
  v <- foldM (fun v j => x <- zget v (j + 1) ;; zset v j x) (zfromto i argc) (snd l) ;;
  Ok (argc, v).

(** [CmdLineItem::parse] with [CmdLineArg::parse_impl], src/Omega_h_cmdline.cpp:50-61, 73-85. *)
Definition item_parse (a : item) (l : line) (i : Z) : res (bool * item * line) :=
  if it_parsed a then Ok (false, a, l) else
  w <- word l i ;;
  l' <- shift l i ;;
  Ok (true, mk_item (it_name a) (Some w), l').

(** The loop over the arguments of a flag, src/Omega_h_cmdline.cpp:105-113. *)
Fixpoint items_parse (args : list item) (l : line) (i : Z) : res (bool * list item * line) :=
  match args with
  | [] => Ok (true, [], l)
  | a :: rest =>
      ' (ok, a', l') <- item_parse a l i ;;
      if ok : bool then
        ' (ok', rest', l'') <- items_parse rest l' i ;;
        Ok (ok' : bool, a' :: rest', l'')
      else Ok (false, a' :: rest, l')
  end.

(** [CmdLineItem::parse] with [CmdLineFlag::parse_impl], src/Omega_h_cmdline.cpp:50-61, 94-115. *)
Definition flag_parse (f : flag) (l : line) (i : Z) : res (bool * flag * line) :=
  if f_parsed f then Ok (false, f, l) else
  l1 <- shift l i ;;
  if fst l1 - i <? zlen (f_args f) then Ok (false, f, l1) else
  ' (ok, args', l2) <- items_parse (f_args f) l1 i ;;
  Ok (ok : bool, mk_flag (f_name f) ok args', l2).

(** The loop over all the flags, src/Omega_h_cmdline.cpp:154-165.  It does not stop at the flag it finds: the later ones are
    compared with what is then at [argv[i]].  Gives whether nothing failed and [parsed_by_flag]. *)
Fixpoint flags_parse (fs : list flag) (l : line) (i : Z) : res (bool * bool * list flag * line) :=
  match fs with
  | [] => Ok (true, false, [], l)
  | f :: rest =>
      w <- word l i ;;
      if String.eqb (f_name f) w then
        ' (ok, f', l') <- flag_parse f l i ;;
        if ok : bool then
          ' (ok', _, rest', l'') <- flags_parse rest l' i ;;
          Ok (ok' : bool, true, f' :: rest', l'')
        else Ok (false, true, f' :: rest, l')
      else
        ' (ok', by_flag, rest', l'') <- flags_parse rest l i ;;
        Ok (ok' : bool, by_flag : bool, f :: rest', l'')
  end.

(** [CmdLine::parse(int*, char**, bool)], src/Omega_h_cmdline.cpp:152-188.  [Ok None] when [fuel] rounds are not enough.
    Simplification: nothing is printed. *)
Fixpoint parse_loop (fuel : nat) (c : cmd) (l : line) (i : Z) : res (option (bool * cmd * line)) :=
  match fuel with
  | O => Ok None
  | S fuel' =>
      if i <? fst l then
        ' (ok, by_flag, fs, l') <- flags_parse (c_flags c) l i ;;
        let c' := mk_cmd (c_args c) fs (c_nargs c) (c_help c) in
        if negb ok then Ok (Some (false, c', l'))
        else if by_flag : bool then parse_loop fuel' c' l' i
        else
          w <- word l' i ;;
          if String.eqb "--help" w then parse_loop fuel' (mk_cmd (c_args c') fs (c_nargs c') true) l' (i + 1)
          else match nth_error (c_args c') (c_nargs c') with
          | Some a =>
              ' (ok, a', l'') <- item_parse a l' i ;;
              let args' := list_set (c_args c') (c_nargs c') a' in
              if ok : bool then parse_loop fuel' (mk_cmd args' fs (S (c_nargs c')) (c_help c')) l'' i
              else parse_loop fuel' (mk_cmd args' fs (c_nargs c') (c_help c')) l'' i
          | None => parse_loop fuel' c' l' (i + 1)
          end
      else Ok (Some (negb (Nat.ltb (c_nargs c) (length (c_args c))), c, l))
  end.

(** [CmdLine::parse(int*, char**, bool)], :153: the loop starts at 1.  Each round takes a word away or steps over one, so it needs no
    more rounds than there are words, and one to see the end. *)
Definition parse (c : cmd) (l : line) : res (option (bool * cmd * line)) := parse_loop (S (Z.to_nat (fst l))) c l 1.

(** [CmdLine::parse_final] with [CmdLine::check_empty], src/Omega_h_cmdline.cpp:137-143, 239-253. *)
Definition parse_final (c : cmd) (l : line) : res (option (bool * cmd * line)) :=
  r <- parse c l ;;
  Ok match r with
     | Some (no_error, c', l') => Some (no_error && negb (c_help c') && (fst l' =? 1), c', l')%bool
     | None => None
     end.

(** [CmdLine::CmdLine], [CmdLine::add_flag], [CmdLine::add_arg], [CmdLineFlag::add_arg] on the [k]-th flag, src/Omega_h_cmdline.cpp:135,
    190-200, 117-121. *)
Definition new_cmd : cmd := mk_cmd [] [] 0 false.
Definition add_flag (c : cmd) (name : string) : cmd := mk_cmd (c_args c) (c_flags c ++ [mk_flag name false []]) (c_nargs c) (c_help c).
Definition add_arg (c : cmd) (name : string) : cmd := mk_cmd (c_args c ++ [mk_item name None]) (c_flags c) (c_nargs c) (c_help c).
Definition add_flag_arg (c : cmd) (k : nat) (name : string) : cmd :=
  match nth_error (c_flags c) k with
  | Some f => mk_cmd (c_args c) (list_set (c_flags c) k (mk_flag (f_name f) (f_parsed f) (f_args f ++ [mk_item name None]))) (c_nargs c) (c_help c)
  | None => c
  end.

(** [CmdLine::parsed(flag_name)], src/Omega_h_cmdline.cpp:202-206. *)
Definition parsed (c : cmd) (name : string) : bool :=
  match find (fun f => String.eqb (f_name f) name) (c_flags c) with Some f => f_parsed f | None => false end.
(** [CmdLine::get(flag_name, arg_name)] with [CmdLineFlag::arg(arg_name)], src/Omega_h_cmdline.cpp:127-131, 215-221: the word, or [None] for the
    default.  Aborts if there is no such flag or argument. *)
Definition get_flag_arg (c : cmd) (name arg_name : string) : res (option string) :=
  match find (fun f => String.eqb (f_name f) name) (c_flags c) with
  | Some f => match find (fun a => String.eqb (it_name a) arg_name) (f_args f) with Some a => Ok (it_word a) | None => Abort end
  | None => Abort
  end.
(** [CmdLine::get(arg_name)], src/Omega_h_cmdline.cpp:229-235. *)
Definition get_arg (c : cmd) (arg_name : string) : res (option string) :=
  match find (fun a => String.eqb (it_name a) arg_name) (c_args c) with Some a => Ok (it_word a) | None => Abort end.
