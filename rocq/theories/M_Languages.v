(** The grammars of the languages that the library reads: the token names and productions that build_language gives,
    in the order of their enumerations.  The regular expressions of the tokens are not here (a lexer built from regular
    expressions is in M_Automaton.v). *)
From Verif Require Import Prelude M_Grammar.
Require Import Ascii String.
Local Open Scope Z_scope.

(** A name, as the codes of its characters *)
Fixpoint name (s : string) : list Z := match s with EmptyString => [] | String c s => Z.of_nat (nat_of_ascii c) :: name s end.
Definition rule (l : string) (r : list string) : list Z * list (list Z) := (name l, map name r).

(** src/Omega_h_regex.cpp:17-67 *)
Definition regex_language : language := mk_language
  (map name
    ["char"%string; "."%string; "["%string; "]"%string; "("%string; ")"%string; "|"%string; "-"%string; "^"%string; "*"%string;
     "+"%string; "?"%string])
  [rule "regex" ["union"]; rule "union" ["concat"]; rule "union" ["union"; "|"; "concat"]; rule "concat" ["qualified"];
   rule "concat" ["concat"; "qualified"]; rule "qualified" ["single"]; rule "qualified" ["qualified"; "*"];
   rule "qualified" ["qualified"; "+"]; rule "qualified" ["qualified"; "?"]; rule "single" ["char"]; rule "single" ["."];
   rule "single" ["set"]; rule "single" ["("; "union"; ")"]; rule "set" ["positive-set"]; rule "set" ["negative-set"];
   rule "positive-set" ["["; "set-items"; "]"]; rule "negative-set" ["["; "^"; "set-items"; "]"]; rule "set-items" ["set-item"];
   rule "set-items" ["set-items"; "set-item"]; rule "set-item" ["char"]; rule "set-item" ["range"];
   rule "range" ["char"; "-"; "char"]]%string.

(** src/Omega_h_math_lang.cpp:8-78 *)
Definition math_language : language := mk_language
  (map name
    ["spaces"%string; "name"%string; "+"%string; "-"%string; "*"%string; "/"%string; "^"%string; "("%string; ")"%string;
     ","%string; "?"%string; ":"%string; ">"%string; "<"%string; ">="%string; "<="%string; "=="%string; "&&"%string; "||"%string;
     "constant"%string; ";"%string; "="%string])
  [rule "program" ["statements"; "expr?"]; rule "statements" []; rule "statements" ["statements"; "statement"; ";"; "S?"];
   rule "statement" ["name"; "S?"; "="; "S?"; "expr"]; rule "expr?" []; rule "expr?" ["expr"]; rule "expr" ["ternary"];
   rule "ternary" ["add_sub"]; rule "or" ["and"]; rule "and" ["comp"]; rule "add_sub" ["mul_div"]; rule "mul_div" ["neg"];
   rule "neg" ["pow"]; rule "pow" ["scalar"]; rule "ternary" ["or"; "?"; "S?"; "add_sub"; ":"; "S?"; "add_sub"];
   rule "or" ["or"; "||"; "S?"; "and"]; rule "and" ["and"; "&&"; "S?"; "comp"]; rule "comp" ["add_sub"; ">"; "S?"; "add_sub"];
   rule "comp" ["add_sub"; "<"; "S?"; "add_sub"]; rule "comp" ["add_sub"; ">="; "S?"; "add_sub"];
   rule "comp" ["add_sub"; "<="; "S?"; "add_sub"]; rule "comp" ["add_sub"; "=="; "S?"; "add_sub"];
   rule "comp" ["("; "S?"; "or"; ")"; "S?"]; rule "add_sub" ["add_sub"; "+"; "S?"; "mul_div"];
   rule "add_sub" ["add_sub"; "-"; "S?"; "mul_div"]; rule "mul_div" ["mul_div"; "*"; "S?"; "pow"];
   rule "mul_div" ["mul_div"; "/"; "S?"; "pow"]; rule "pow" ["scalar"; "^"; "S?"; "pow"];
   rule "scalar" ["name"; "S?"; "("; "S?"; "args?"; ")"; "S?"]; rule "args?" []; rule "args?" ["args"]; rule "args" ["ternary"];
   rule "args" ["args"; ","; "S?"; "ternary"]; rule "neg" ["-"; "S?"; "neg"]; rule "scalar" ["("; "S?"; "ternary"; ")"; "S?"];
   rule "scalar" ["constant"; "S?"]; rule "scalar" ["name"; "S?"]; rule "S?" []; rule "S?" ["spaces"]]%string.

(** src/Omega_h_xml.cpp:6-132 *)
Definition xml_language : language := mk_language
  (map name
    ["Space"%string; "Letter"%string; "Digit"%string; "!"%string; """"%string; "'"%string; "#"%string; "&"%string; "-"%string;
     "."%string; "/"%string; ":"%string; ";"%string; "<"%string; ">"%string; "?"%string; "="%string; "["%string; "]"%string;
     "_"%string; "OtherChar"%string])
  [rule "document" ["toplevels"]; rule "toplevels" []; rule "toplevels" ["toplevel"; "S?"; "toplevels"];
   rule "toplevel" ["element"]; rule "toplevel" ["XMLDecl"]; rule "element" ["EmptyElemTag"]; rule "element" ["STag"; "content"];
   rule "XMLDecl" ["<"; "?"; "Name"; "TagFill"; "?"; ">"]; rule "STag" ["<"; "Name"; "TagFill"; ">"];
   rule "ETag" ["<"; "/"; "Name"; "S?"; ">"]; rule "EmptyElemTag" ["<"; "Name"; "TagFill"; "/"; ">"];
   rule "content" ["CharData?"; "ContentItem*"; "ETag"]; rule "ContentItem*" [];
   rule "ContentItem*" ["ContentItem*"; "ContentItem"; "CharData?"]; rule "ContentItem" ["element"];
   rule "ContentItem" ["Reference"]; rule "ContentItem" ["Comment"]; rule "CharData?" [];
   rule "CharData?" ["CharData?"; "DataChar"]; rule "TagFill" ["Attributes"; "S?"]; rule "Attributes" [];
   rule "Attributes" ["Attributes"; "S"; "Attribute"]; rule "Attribute" ["Name"; "Eq"; "AttValue"]; rule "Eq" ["S?"; "="; "S?"];
   rule "AttValue" [""""; "DQuoteds"; """"]; rule "AttValue" ["'"; "SQuoteds"; "'"]; rule "DQuoteds" [];
   rule "DQuoteds" ["DQuoteds"; "DQuoted"]; rule "DQuoted" ["DQuotedChar"]; rule "DQuoted" ["Reference"]; rule "SQuoteds" [];
   rule "SQuoteds" ["SQuoteds"; "SQuoted"]; rule "SQuoted" ["SQuotedChar"]; rule "SQuoted" ["Reference"];
   rule "Name" ["NameFirstChar"; "NameChars"]; rule "NameFirstChar" ["Letter"]; rule "NameFirstChar" ["_"];
   rule "NameFirstChar" [":"]; rule "NameChars" []; rule "NameChars" ["NameChars"; "NameChar"]; rule "NameChar" ["Letter"];
   rule "NameChar" ["Digit"]; rule "NameChar" ["."]; rule "NameChar" ["-"]; rule "NameChar" ["_"]; rule "NameChar" [":"];
   rule "Miscs" []; rule "Miscs" ["Miscs"; "Misc"]; rule "Misc" ["Comment"]; rule "Misc" ["S"];
   rule "Comment" ["<"; "!"; "-"; "-"; "Commenteds"; "-"; "-"; ">"]; rule "Commenteds" [];
   rule "Commenteds" ["Commenteds"; "Commented"]; rule "Commented" ["CommentChar"]; rule "Commented" ["-"; "CommentChar"];
   rule "Reference" ["&"; "Name"; ";"]; rule "Reference" ["&"; "#"; "Digits"; ";"]; rule "Digits" ["Digit"];
   rule "Digits" ["Digits"; "Digit"]; rule "S?" []; rule "S?" ["S"]; rule "S" ["Space"]; rule "S" ["S"; "Space"];
   rule "DQuotedChar" ["CommonChar"]; rule "DQuotedChar" ["'"]; rule "DQuotedChar" ["]"]; rule "DQuotedChar" ["-"];
   rule "SQuotedChar" ["CommonChar"]; rule "SQuotedChar" [""""]; rule "SQuotedChar" ["]"]; rule "SQuotedChar" ["-"];
   rule "DataChar" ["CommonChar"]; rule "DataChar" ["'"]; rule "DataChar" [""""]; rule "DataChar" ["-"];
   rule "CommentChar" ["CommonChar"]; rule "CommentChar" ["<"]; rule "CommentChar" ["&"]; rule "CommentChar" ["'"];
   rule "CommentChar" [""""]; rule "CommentChar" ["]"]; rule "CommonChar" ["Space"]; rule "CommonChar" ["Letter"];
   rule "CommonChar" ["Digit"]; rule "CommonChar" ["!"]; rule "CommonChar" ["#"]; rule "CommonChar" ["."];
   rule "CommonChar" ["/"]; rule "CommonChar" [":"]; rule "CommonChar" [";"]; rule "CommonChar" [">"]; rule "CommonChar" ["?"];
   rule "CommonChar" ["="]; rule "CommonChar" ["["]; rule "CommonChar" ["_"]; rule "CommonChar" ["OtherChar"]]%string.

(** src/Omega_h_yaml.cpp:6-181 *)
Definition yaml_language : language := mk_language
  (map name
    ["NEWLINE"%string; "INDENT"%string; "DEDENT"%string; "WS"%string; ":"%string; "."%string; "-"%string; """"%string;
     "'"%string; "\"%string; "|"%string; "["%string; "]"%string; "{"%string; "}"%string; ">"%string; ","%string; "%"%string;
     "!"%string; "OTHERCHAR"%string])
  [rule "doc" ["top_items"]; rule "doc" ["NEWLINE"; "top_items"]; rule "top_items" ["top_item"];
   rule "top_items" ["top_items"; "top_item"]; rule "top_item" ["%"; "any*"; "NEWLINE"];
   rule "top_item" ["-"; "-"; "-"; "NEWLINE"]; rule "top_item" ["."; "."; "."; "NEWLINE"]; rule "top_item" ["bmap_item"];
   rule "bmap_items" ["bmap_item"]; rule "bmap_items" ["bmap_items"; "bmap_item"];
   rule "bmap_item" ["scalar"; ":"; "WS*"; "tag?"; "map_scalar"; "NEWLINE"]; rule "bmap_item" ["scalar"; ":"; "WS*"; "bscalar"];
   rule "bmap_item" ["scalar"; ":"; "WS*"; "NEWLINE"; "bvalue"]; rule "bvalue" [];
   rule "bvalue" ["INDENT"; "bmap_items"; "DEDENT"]; rule "bvalue" ["INDENT"; "bseq_items"; "DEDENT"];
   rule "bmap_item" ["scalar"; ":"; "WS*"; "tag?"; "fmap"; "NEWLINE"];
   rule "bmap_item" ["scalar"; ":"; "WS*"; "tag?"; "fseq"; "NEWLINE"]; rule "bseq_items" ["bseq_item"];
   rule "bseq_items" ["bseq_items"; "bseq_item"]; rule "bseq_item" ["-"; "WS+"; "tag?"; "scalar"; "NEWLINE"];
   rule "bseq_item" ["-"; "WS+"; "bscalar"]; rule "bseq_item" ["-"; "NEWLINE"; "INDENT"; "bmap_items"; "DEDENT"];
   rule "bseq_item" ["-"; "WS+"; "NEWLINE"; "INDENT"; "bmap_items"; "DEDENT"];
   rule "bseq_item" ["-"; "NEWLINE"; "INDENT"; "bseq_items"; "DEDENT"];
   rule "bseq_item" ["-"; "WS+"; "NEWLINE"; "INDENT"; "bseq_items"; "DEDENT"];
   rule "bseq_item" ["-"; "WS+"; "tag?"; "fmap"; "NEWLINE"]; rule "bseq_item" ["-"; "WS+"; "tag?"; "fseq"; "NEWLINE"];
   rule "fmap" ["{"; "WS*"; "fmap_items"; "}"; "WS*"]; rule "fmap" ["{"; "WS*"; "}"; "WS*"]; rule "fmap_items" ["fmap_item"];
   rule "fmap_items" ["fmap_items"; ","; "WS*"; "fmap_item"]; rule "fmap_item" ["scalar"; ":"; "WS*"; "tag?"; "scalar"];
   rule "fmap_item" ["scalar"; ":"; "WS*"; "tag?"; "fmap"]; rule "fmap_item" ["scalar"; ":"; "WS*"; "tag?"; "fseq"];
   rule "fseq" ["["; "WS*"; "fseq_items"; "]"; "WS*"]; rule "fseq" ["["; "WS*"; "]"; "WS*"]; rule "fseq_items" ["fseq_item"];
   rule "fseq_items" ["fseq_items"; ","; "WS*"; "fseq_item"]; rule "fseq_item" ["tag?"; "scalar"];
   rule "fseq_item" ["tag?"; "fmap"]; rule "fseq_item" ["tag?"; "fseq"]; rule "scalar" ["scalar_head"; "scalar_tail*"];
   rule "scalar" ["scalar_quoted"]; rule "map_scalar" ["scalar_head"; "scalar_tail*"; "map_scalar_escaped*"];
   rule "map_scalar" ["scalar_quoted"]; rule "scalar_quoted" [""""; "dquoted*"; "descape*"; """"; "WS*"];
   rule "scalar_quoted" ["'"; "squoted*"; "sescape*"; "'"; "WS*"]; rule "scalar_head" ["OTHERCHAR"];
   rule "scalar_head" ["."; "OTHERCHAR"]; rule "scalar_head" ["-"; "OTHERCHAR"]; rule "scalar_head" ["."; "."; "OTHERCHAR"];
   rule "map_scalar_escaped*" []; rule "map_scalar_escaped*" ["map_scalar_escaped*"; ","; "scalar_tail*"]; rule "tag?" [];
   rule "tag?" ["!"; "!"; "OTHERCHAR+"; "WS+"];
   rule "bscalar" ["bscalar_header"; "WS*"; "NEWLINE"; "INDENT"; "bscalar_items"; "DEDENT"];
   rule "bscalar_items" ["bscalar_item"]; rule "bscalar_items" ["bscalar_items"; "bscalar_item"];
   rule "bscalar_item" ["any*"; "NEWLINE"]; rule "bscalar_item" ["INDENT"; "bscalar_items"; "DEDENT"];
   rule "bscalar_header" ["|"; "bscalar_head_c*"]; rule "bscalar_header" [">"; "bscalar_head_c*"]; rule "bscalar_head_c*" [];
   rule "bscalar_head_c*" ["bscalar_head_c*"; "bscalar_head_c"]; rule "bscalar_head_c" ["OTHERCHAR"];
   rule "bscalar_head_c" ["-"]; rule "dquoted*" []; rule "dquoted*" ["dquoted*"; "dquoted"]; rule "squoted*" [];
   rule "squoted*" ["squoted*"; "squoted"]; rule "any*" []; rule "any*" ["any*"; "any"]; rule "descape*" [];
   rule "descape*" ["descape*"; "descape"]; rule "descape" ["\"; "descaped"; "dquoted*"]; rule "sescape*" [];
   rule "sescape*" ["sescape*"; "sescape"]; rule "sescape" ["'"; "'"; "squoted*"]; rule "scalar_tail*" [];
   rule "scalar_tail*" ["scalar_tail*"; "scalar_tail"]; rule "OTHERCHAR+" ["OTHERCHAR"];
   rule "OTHERCHAR+" ["OTHERCHAR+"; "OTHERCHAR"]; rule "scalar_tail" ["WS"]; rule "scalar_tail" ["."]; rule "scalar_tail" ["-"];
   rule "scalar_tail" ["'"]; rule "scalar_tail" ["OTHERCHAR"]; rule "descaped" [""""]; rule "descaped" ["\"];
   rule "descaped" ["dquoted"]; rule "dquoted" ["common"]; rule "dquoted" ["'"]; rule "squoted" ["common"];
   rule "squoted" [""""]; rule "squoted" ["\"]; rule "any" ["common"]; rule "any" [""""]; rule "any" ["'"]; rule "any" ["\"];
   rule "common" ["WS"]; rule "common" [":"]; rule "common" ["."]; rule "common" ["-"]; rule "common" ["|"]; rule "common" ["["];
   rule "common" ["]"]; rule "common" ["{"]; rule "common" ["}"]; rule "common" [">"]; rule "common" [","]; rule "common" ["%"];
   rule "common" ["!"]; rule "common" ["OTHERCHAR"]; rule "WS*" []; rule "WS*" ["WS*"; "WS"]; rule "WS+" ["WS"];
   rule "WS+" ["WS+"; "WS"]]%string.
