(* The syntax tables of the compiler for the Atari 8-bit computers, as the files of
   src/syntax define them: the integer version loads, in the order of
   compiler/a800.tgt, a800.syn, basic.syn, dli.syn, fileio.syn, pm.syn, graphics.syn,
   sound.syn, extended.syn and sio.syn; the floating point version adds float.syn and
   fujinet.syn (compiler/atari-fp.tgt).  A table defined in several files is joined as
   statemachine::parse_extra does (synt-sm.cc:284-318): the new lines go before the
   first one when the name is followed by a less-than sign, else at the end, but before
   a last line that cannot fail.  Symbols with a number stand for that number
   (synt-sm.cc:104-150), the others are imported by name.
   This file is a transcription made by a script from the text of the files. *)
From Verif Require Import Codew Front.
Open Scope string_scope.
Open Scope Z_scope.
Open Scope list_scope.

(* src/syntax/basic.syn:110-111 *)
Definition t_INT_EXPR : list pline :=
  [[PTab "T_EXPR"; PTab "BIT_EXPR_MORE"; PTab "M_EXPR_MORE"; PTab "INT_EXPR_MORE"; PRet]].

(* src/syntax/basic.syn:113-118 *)
Definition t_PUSH_T_EXPR : list pline :=
  [[PEmit [CTok T_PUSH]; PTab "T_EXPR"; PRet]].

(* src/syntax/basic.syn:120-123 *)
Definition t_INT_EXPR_MORE : list pline :=
  [[PLit "+"; PTab "PUSH_T_EXPR"; PTab "BIT_EXPR_MORE"; PTab "M_EXPR_MORE"; PEmit [CTok
      T_ADD]; PTab "INT_EXPR_MORE"; PRet];
   [PLit "-"; PTab "PUSH_T_EXPR"; PTab "BIT_EXPR_MORE"; PTab "M_EXPR_MORE"; PEmit [CTok
      T_SUB]; PTab "INT_EXPR_MORE"; PRet];
   [PRet]].

(* src/syntax/basic.syn:125-129 *)
Definition t_M_EXPR_MORE : list pline :=
  [[PLit "*"; PTab "PUSH_T_EXPR"; PTab "BIT_EXPR_MORE"; PEmit [CTok T_MUL]; PTab
      "M_EXPR_MORE"; PRet];
   [PLit "/"; PTab "PUSH_T_EXPR"; PTab "BIT_EXPR_MORE"; PEmit [CTok T_DIV]; PTab
      "M_EXPR_MORE"; PRet];
   [PLit "Mod"; PTab "PUSH_T_EXPR"; PTab "BIT_EXPR_MORE"; PEmit [CTok T_MOD]; PTab
      "M_EXPR_MORE"; PRet];
   [PRet]].

(* src/syntax/basic.syn:131-135 *)
Definition t_BIT_EXPR_MORE : list pline :=
  [[PLit "&"; PTab "PUSH_T_EXPR"; PEmit [CTok T_BIT_AND]; PTab "BIT_EXPR_MORE"; PRet];
   [PLit "!"; PTab "PUSH_T_EXPR"; PEmit [CTok T_BIT_OR]; PTab "BIT_EXPR_MORE"; PRet];
   [PLit "Exor"; PTab "PUSH_T_EXPR"; PEmit [CTok T_BIT_EXOR]; PTab "BIT_EXPR_MORE"; PRet];
   [PRet]].

(* src/syntax/basic.syn:137-144 *)
Definition t_ADR_EXPR : list pline :=
  [[PTab "STR_EXPR"; PRet];
   [PEmit [CTok T_VAR_LOAD; CByteS "VT_ARRAY_WORD"]; PExt "E_VAR_SEARCH"; PRet];
   [PEmit [CTok T_VAR_LOAD; CByteS "VT_ARRAY_BYTE"]; PExt "E_VAR_SEARCH"; PRet];
   [PEmit [CTok T_NUM; CByteS "VT_ARRAY_WORD"]; PExt "E_LABEL"; PRet];
   [PEmit [CTok T_NUM; CByteS "VT_ARRAY_BYTE"]; PExt "E_LABEL"; PRet];
   [PEmit [CTok T_VAR_LOAD; CByteS "VT_ARRAY_STRING"]; PExt "E_VAR_SEARCH"; PRet];
   [PEmit [CTok T_VAR_ADDR]; PExt "E_VAR_WORD"; PRet]].

(* src/syntax/basic.syn:146-148 *)
Definition t_USR_EXPR_MORE : list pline :=
  [[PLit ","; PTab "EXPR"; PEmit [CTok (T_Other "TOK_USR_PARAM")]; PTab "USR_EXPR_MORE";
      PRet];
   [PRet]].

(* src/syntax/basic.syn:150-156 *)
Definition t_T_EXPR : list pline :=
  [[PEmit [CTok T_BYTE]; PExt "E_NUMBER_BYTE"; PRet];
   [PEmit [CTok T_NUM]; PExt "E_NUMBER_WORD"; PRet];
   [PLit "-"; PTab "T_EXPR"; PEmit [CTok T_NEG]; PRet];
   [PLit "+"; PTab "T_EXPR"; PRet];
   [PTab "PAR_EXPR"; PRet];
   [PTab "INT_FUNCTIONS"; PRet]].

(* src/syntax/basic.syn:159-187, src/syntax/pm.syn:29-32, src/syntax/sio.syn:31-32 *)
Definition t_INT_FUNCTIONS : list pline :=
  [[PLit "Not"; PTab "NOT_EXPR"; PEmit [CTok T_L_NOT]; PRet];
   [PLit "Time"; PEmit [CTok (T_Other "TOK_TIME")]; PRet];
   [PTab "ARRAY_WORD_ADDR"; PEmit [CTok (T_Other "TOK_DPEEK")]; PRet];
   [PTab "ARRAY_BYTE_ADDR"; PEmit [CTok T_PEEK]; PRet];
   [PLit "Fre()"; PEmit [CTok T_NUM; CWordS "MEMTOP"; CTok (T_Other "TOK_DPEEK"); CTok
      T_PUSH_BYTE; CByteS "BASIC_TOP"; CTok (T_Other "TOK_DPEEK"); CTok T_SUB]; PRet];
   [PLit "Err()"; PEmit [CTok T_BYTE_PEEK; CByteS "IOERROR"]; PRet];
   [PLit "Key()"; PEmit [CTok T_NUM; CWord 764; CTok T_PEEK; CTok T_PUSH_BYTE; CByte 255;
      CTok T_BIT_EXOR]; PRet];
   [PEmit [CTok T_VAR_LOAD]; PExt "E_VAR_WORD"; PRet];
   [PLit "Abs"; PTab "T_EXPR"; PEmit [CTok (T_Other "TOK_ABS")]; PRet];
   [PLit "SGn"; PTab "T_EXPR"; PEmit [CTok (T_Other "TOK_SGN")]; PRet];
   [PLit "Peek"; PTab "T_EXPR"; PEmit [CTok T_PEEK]; PRet];
   [PLit "PAddle"; PEmit [CTok T_NUM; CWord 624; CTok T_PUSH_BYTE; CByte 7]; PTab
      "RD_PORT"; PRet];
   [PLit "PTrig"; PEmit [CTok T_NUM; CWord 636; CTok T_PUSH_BYTE; CByte 7]; PTab
      "RD_PORT"; PRet];
   [PLit "Stick"; PEmit [CTok T_NUM; CWord 632; CTok T_PUSH_BYTE; CByte 3]; PTab
      "RD_PORT"; PRet];
   [PLit "STRig"; PEmit [CTok T_NUM; CWord 644; CTok T_PUSH_BYTE; CByte 3]; PTab
      "RD_PORT"; PRet];
   [PLit "Rand"; PTab "T_EXPR"; PEmit [CTok (T_Other "TOK_RAND")]; PRet];
   [PLit "Dpeek"; PTab "T_EXPR"; PEmit [CTok (T_Other "TOK_DPEEK")]; PRet];
   [PLit "USR("; PTab "EXPR"; PEmit [CTok (T_Other "TOK_USR_ADDR")]; PTab
      "USR_EXPR_MORE"; PLit ")"; PEmit [CTok (T_Other "TOK_USR_CALL")]; PRet];
   [PLit "ADR("; PTab "ADR_EXPR"; PLit ")"; PRet];
   [PLit "&"; PTab "ADR_EXPR"; PRet];
   [PLit "Len"; PTab "STR_EXPR"; PEmit [CTok T_PEEK]; PRet];
   [PLit "Val"; PTab "STR_EXPR"; PEmit [CTok (T_Other "TOK_VAL")]; PRet];
   [PLit "ASc"; PTab "STR_EXPR"; PEmit [CTok T_PUSH_1; CTok T_ADD; CTok T_PEEK]; PRet];
   [PLit "PMadr"; PTab "T_EXPR"; PEmit [CTok T_PUSH_BYTE; CByte 4; CTok T_ADD; CTok
      T_PUSH_NUM; CWordS "PMGMODE"; CTok T_PEEK; CTok T_USHL; CTok T_MUL; CTok
      T_PUSH_NUM; CWordS "PMGBASE"; CTok T_PEEK; CTok T_SHL8; CTok T_ADD]; PRet];
   [PLit "SErr()"; PEmit [CTok T_NUM; CWord 771; CTok T_PEEK]; PRet]].

(* src/syntax/basic.syn:190-191 *)
Definition t_RD_PORT : list pline :=
  [[PEmit [CTok T_PUSH]; PTab "T_EXPR"; PEmit [CTok T_BIT_AND; CTok T_ADD; CTok T_PEEK];
      PRet]].

(* src/syntax/basic.syn:193-194 *)
Definition t_PAR_EXPR : list pline :=
  [[PLit "("; PTab "EXPR"; PLit ")"; PRet]].

(* src/syntax/basic.syn:197-199 *)
Definition t_OR_AND_BOOL : list pline :=
  [[PTab "OR_EXPR_RIGHT"; PRet];
   [PTab "AND_EXPR_RIGHT"; PTab "OR_EXPR_MORE"; PRet]].

(* src/syntax/basic.syn:202-205 *)
Definition t_TEST_BOOL_EXPR : list pline :=
  [[PEmit [CTok T_COMP_0]; PTab "OR_AND_BOOL"; PRet];
   [PEmit [CTok T_PUSH]; PTab "COMP_EXPR_RIGHT"; PTab "AND_EXPR_MORE"; PTab
      "OR_EXPR_MORE"; PTab "COMP_EXPR_MORE"; PRet];
   [PRet]].

(* src/syntax/basic.syn:208-210 *)
Definition t_EXPR : list pline :=
  [[PTab "INT_EXPR"; PTab "TEST_BOOL_EXPR"; PRet];
   [PTab "STR_EXPR"; PTab "COMP_STR_RIGHT"; PRet]].

(* src/syntax/basic.syn:213-214 *)
Definition t_FORCE_BOOL_EXPR : list pline :=
  [[PTab "NOT_EXPR"; PTab "AND_EXPR_MORE"; PTab "OR_EXPR_MORE"; PRet]].

(* src/syntax/basic.syn:216-217 *)
Definition t_OR_EXPR_RIGHT : list pline :=
  [[PLit "Or"; PEmit [CTok T_PUSH]; PTab "NOT_EXPR"; PTab "AND_EXPR_MORE"; PEmit [CTok
      T_L_OR]; PTab "OR_EXPR_MORE"; PRet]].

(* src/syntax/basic.syn:219-221 *)
Definition t_OR_EXPR_MORE : list pline :=
  [[PTab "OR_EXPR_RIGHT"; PRet];
   [PRet]].

(* src/syntax/basic.syn:223-224 *)
Definition t_AND_EXPR_RIGHT : list pline :=
  [[PLit "And"; PEmit [CTok T_PUSH]; PTab "NOT_EXPR"; PEmit [CTok T_L_AND]; PTab
      "AND_EXPR_MORE"; PRet]].

(* src/syntax/basic.syn:226-228 *)
Definition t_AND_EXPR_MORE : list pline :=
  [[PTab "AND_EXPR_RIGHT"; PRet];
   [PRet]].

(* src/syntax/basic.syn:230-233 *)
Definition t_NOT_EXPR : list pline :=
  [[PLit "Not"; PTab "NOT_EXPR"; PEmit [CTok T_L_NOT]; PRet];
   [PTab "INT_EXPR"; PTab "COMP_OR_BOOL"; PRet];
   [PTab "STR_EXPR"; PTab "COMP_STR_RIGHT"; PRet]].

(* src/syntax/basic.syn:235-237 *)
Definition t_COMP_OR_BOOL : list pline :=
  [[PEmit [CTok T_PUSH]; PTab "COMP_EXPR_RIGHT"; PTab "COMP_EXPR_MORE"; PRet];
   [PEmit [CTok T_COMP_0]; PRet]].

(* src/syntax/basic.syn:239-245 *)
Definition t_COMP_EXPR_RIGHT : list pline :=
  [[PLit "<="; PTab "INT_EXPR"; PEmit [CTok T_GT; CTok T_L_NOT]; PRet];
   [PLit ">="; PTab "INT_EXPR"; PEmit [CTok T_LT; CTok T_L_NOT]; PRet];
   [PLit "<>"; PTab "INT_EXPR"; PEmit [CTok T_NEQ]; PRet];
   [PLit "<"; PTab "INT_EXPR"; PEmit [CTok T_LT]; PRet];
   [PLit ">"; PTab "INT_EXPR"; PEmit [CTok T_GT]; PRet];
   [PLit "="; PTab "INT_EXPR"; PEmit [CTok T_EQ]; PRet]].

(* src/syntax/basic.syn:248-249 *)
Definition t_PCMP_STR_EXPR : list pline :=
  [[PEmit [CTok T_PUSH]; PTab "STR_EXPR"; PEmit [CTok (T_Other "TOK_CMP_STR")]; PRet]].

(* src/syntax/basic.syn:251-257 *)
Definition t_COMP_STR_RIGHT : list pline :=
  [[PLit "="; PTab "PCMP_STR_EXPR"; PEmit [CTok T_EQ]; PRet];
   [PLit ">"; PTab "PCMP_STR_EXPR"; PEmit [CTok T_GT]; PRet];
   [PLit ">="; PTab "PCMP_STR_EXPR"; PEmit [CTok T_LT; CTok T_L_NOT]; PRet];
   [PLit "<>"; PTab "PCMP_STR_EXPR"; PEmit [CTok T_NEQ]; PRet];
   [PLit "<="; PTab "PCMP_STR_EXPR"; PEmit [CTok T_GT; CTok T_L_NOT]; PRet];
   [PLit "<"; PTab "PCMP_STR_EXPR"; PEmit [CTok T_LT]; PRet]].

(* src/syntax/basic.syn:259-261 *)
Definition t_COMP_EXPR_MORE : list pline :=
  [[PEmit [CTok T_PUSH]; PTab "COMP_EXPR_RIGHT"; PTab "COMP_EXPR_MORE"; PRet];
   [PRet]].

(* src/syntax/basic.syn:264-266 *)
Definition t_STR_EXPR : list pline :=
  [[PLit "("; PTab "STR_EXPR"; PLit ")"; PRet];
   [PTab "STRING_FUNCTIONS"; PTab "OPT_STR_INDEX"; PRet]].

(* src/syntax/basic.syn:269-272 *)
Definition t_OPT_STR_INDEX : list pline :=
  [[PLit "["; PEmit [CTok T_PUSH]; PTab "EXPR"; PTab "C_EXPR"; PLit "]"; PEmit [CTok
      T_STR_IDX]; PTab "OPT_STR_INDEX"; PRet];
   [PLit "["; PEmit [CTok T_PUSH]; PTab "EXPR"; PLit "]"; PEmit [CTok T_PUSH_BYTE; CByte
      255; CTok T_STR_IDX]; PTab "OPT_STR_INDEX"; PRet];
   [PRet]].

(* src/syntax/basic.syn:274-285 *)
Definition t_STRING_FUNCTIONS : list pline :=
  [[PLit """"; PEmit [CTok T_CSTRING]; PExt "E_CONST_STRING"; PRet];
   [PLit "CHR$"; PTab "T_EXPR"; PEmit [CTok T_CHR]; PRet];
   [PLit "STR$"; PTab "T_EXPR"; PEmit [CTok (T_Other "TOK_INT_STR")]; PRet];
   [PLit "$"; PTab "PAR_EXPR"; PRet];
   [PEmit [CTok T_VAR_LOAD; CByteS "VT_STRING"]; PExt "E_VAR_SEARCH"; PLit "$"; PRet];
   [PTab "ARRAY_STRING_ADDR"; PEmit [CTok (T_Other "TOK_DPEEK")]; PRet]].

(* src/syntax/basic.syn:289-296 *)
Definition t_PRINT_SEP : list pline :=
  [[PLit "Tab"; PTab "T_EXPR"; PEmit [CTok (T_Other "TOK_PRINT_TAB")]; PRet];
   [PLit "RTab"; PTab "T_EXPR"; PEmit [CTok T_BYTE_POKE; CByteS "PRINT_RTAB_ARG"]; PTab
      "PRINT_ONE"; PEmit [CTok (T_Other "TOK_PRINT_RTAB")]; PTab "PRINT_EOL"; PRet];
   [PLit "Color"; PTab "T_EXPR"; PEmit [CTok T_BYTE_POKE; CByteS "PRINT_COLOR"]; PTab
      "PRINT_NO_EOL"; PEmit [CTok T_0; CTok T_BYTE_POKE; CByteS "PRINT_COLOR"]; PRet];
   [PLit ","; PEmit [CTok T_BYTE; CByte 10; CTok (T_Other "TOK_PRINT_TAB")]; PRet];
   [PLit ";"; PRet]].

(* src/syntax/basic.syn:299-301 *)
Definition t_PRINT_ONE : list pline :=
  [[PTab "EXPR"; PEmit [CTok (T_Other "TOK_INT_STR")]; PRet];
   [PTab "STR_EXPR"; PRet]].

(* src/syntax/basic.syn:304-307 *)
Definition t_PRINT_NO_EOL : list pline :=
  [[PExt "E_EOL"; PRet];
   [PTab "PRINT_SEP"; PTab "PRINT_NO_EOL"; PRet];
   [PTab "PRINT_ONE"; PEmit [CTok T_PRINT_STR]; PTab "PRINT_EOL"; PRet]].

(* src/syntax/basic.syn:310-312 *)
Definition t_PRINT_EOL : list pline :=
  [[PExt "E_EOL"; PEmit [CTok T_BYTE_PUT; CByte 155]; PRet];
   [PTab "PRINT_NO_EOL"; PRet]].

(* src/syntax/basic.syn:315-317 *)
Definition t_THEN_OR_MULTILINE : list pline :=
  [[PLit "Then"; PTab "PARSE_START"; PExt "E_POP_IF"; PRet];
   [PRet]].

(* src/syntax/basic.syn:319-321 *)
Definition t_VAR_CREATE_TYPE : list pline :=
  [[PLit "$"; PEmit [CByteS "VT_STRING"]; PRet];
   [PEmit [CByteS "VT_WORD"]; PRet]].

(* src/syntax/basic.syn:327-330 *)
Definition t_VAR_WORD_LVALUE_SADDR : list pline :=
  [[PTab "ARRAY_WORD_ADDR"; PEmit [CTok T_SADDR]; PRet];
   [PExt "E_VAR_CREATE"; PTab "VAR_CREATE_TYPE"; PExt "E_VAR_SET_TYPE"; PRet];
   [PEmit [CTok T_VAR_SADDR]; PExt "E_VAR_WORD"; PRet]].

(* src/syntax/basic.syn:332-334 *)
Definition t_VAR_STR_LVALUE_SADDR : list pline :=
  [[PEmit [CTok T_VAR_SADDR; CByteS "VT_STRING"]; PExt "E_VAR_SEARCH"; PLit "$"; PRet];
   [PTab "ARRAY_STRING_ADDR"; PEmit [CTok T_SADDR]; PRet]].

(* src/syntax/basic.syn:336-338 *)
Definition t_VAR_WORD_SAVE : list pline :=
  [[PExt "E_VAR_CREATE"; PTab "VAR_CREATE_TYPE"; PExt "E_VAR_SET_TYPE"; PRet];
   [PExt "E_VAR_WORD"; PExt "E_PUSH_VAR"; PRet]].

(* src/syntax/basic.syn:341-342 *)
Definition t_EQUAL : list pline :=
  [[PLit "="; PRet]].

(* src/syntax/basic.syn:345-347 *)
Definition t_STEP_OPTIONAL : list pline :=
  [[PLit "Step"; PEmit [CTok T_PUSH]; PTab "EXPR"; PRet];
   [PEmit [CTok T_PUSH_1]; PRet]].

(* src/syntax/basic.syn:350-352 *)
Definition t_NEXT_VARNAME : list pline :=
  [[PExt "E_VAR_WORD"; PRet];
   [PEmit [CByte 0]; PRet]].

(* src/syntax/basic.syn:355-356 *)
Definition t_POSITION : list pline :=
  [[PTab "EXPR"; PTab "C_EXPR"; PEmit [CTok (T_Other "TOK_POSITION")]; PRet]].

(* src/syntax/basic.syn:359-361 *)
Definition t_ARRAY_WORD_ADDR : list pline :=
  [[PEmit [CTok T_VAR_LOAD; CByteS "VT_ARRAY_WORD"]; PExt "E_VAR_SEARCH"; PEmit [CTok
      T_PUSH]; PTab "PAR_EXPR"; PEmit [CTok T_USHL; CTok T_ADD]; PRet];
   [PEmit [CTok T_NUM; CByteS "VT_ARRAY_WORD"]; PExt "E_LABEL"; PEmit [CTok T_PUSH]; PTab
      "PAR_EXPR"; PEmit [CTok T_USHL; CTok T_ADD]; PRet]].

(* src/syntax/basic.syn:364-365 *)
Definition t_ARRAY_STRING_ADDR : list pline :=
  [[PEmit [CTok T_VAR_LOAD; CByteS "VT_ARRAY_STRING"]; PExt "E_VAR_SEARCH"; PLit "$";
      PEmit [CTok T_PUSH]; PTab "PAR_EXPR"; PEmit [CTok T_USHL; CTok T_ADD]; PRet]].

(* src/syntax/basic.syn:368-370 *)
Definition t_ARRAY_BYTE_ADDR : list pline :=
  [[PEmit [CTok T_VAR_LOAD; CByteS "VT_ARRAY_BYTE"]; PExt "E_VAR_SEARCH"; PEmit [CTok
      T_PUSH]; PTab "PAR_EXPR"; PEmit [CTok T_ADD]; PRet];
   [PEmit [CTok T_NUM; CByteS "VT_ARRAY_BYTE"]; PExt "E_LABEL"; PEmit [CTok T_PUSH]; PTab
      "PAR_EXPR"; PEmit [CTok T_ADD]; PRet]].

(* src/syntax/basic.syn:373-375 *)
Definition t_DIM_MORE : list pline :=
  [[PLit ","; PTab "DIM_VAR"; PTab "DIM_MORE"; PRet];
   [PRet]].

(* src/syntax/basic.syn:378-381, src/syntax/fileio.syn:61-62 *)
Definition t_INPUT_STR : list pline :=
  [[PTab "IO_CHAN"; PEmit [CTok T_IOCHN]; PLit ","; PRet];
   [PLit """"; PEmit [CTok T_CSTRING]; PExt "E_CONST_STRING"; PEmit [CTok T_PRINT_STR];
      PTab "PRINT_SEP"; PRet];
   [PLit ";"; PRet];
   [PEmit [CTok T_BYTE_PUT; CByte 63]; PRet]].

(* src/syntax/basic.syn:383-384 *)
Definition t_INPUT_VAR_LIST : list pline :=
  [[PTab "INPUT_VAR"; PTab "INPUT_VAR_MORE"; PRet]].

(* src/syntax/basic.syn:386-388 *)
Definition t_INPUT_VAR_MORE : list pline :=
  [[PLit ","; PTab "INPUT_VAR_LIST"; PRet];
   [PRet]].

(* src/syntax/basic.syn:390-393 *)
Definition t_INPUT_VAR : list pline :=
  [[PTab "VAR_WORD_LVALUE_SADDR"; PEmit [CTok (T_Other "TOK_INPUT_STR"); CTok (T_Other
      "TOK_VAL"); CTok T_DPOKE]; PRet];
   [PTab "ARRAY_BYTE_ADDR"; PEmit [CTok T_SADDR; CTok (T_Other "TOK_INPUT_STR"); CTok
      (T_Other "TOK_VAL"); CTok T_POKE]; PRet];
   [PTab "VAR_STR_LVALUE_SADDR"; PEmit [CTok (T_Other "TOK_INPUT_STR"); CTok (T_Other
      "TOK_COPY_STR")]; PRet]].

(* src/syntax/basic.syn:396-398 *)
Definition t_TYPE_WORD : list pline :=
  [[PLit "Word"; PEmit [CByteS "VT_ARRAY_WORD"]; PRet];
   [PEmit [CByteS "VT_ARRAY_WORD"]; PRet]].

(* src/syntax/basic.syn:401-402 *)
Definition t_TYPE_BYTE : list pline :=
  [[PLit "Byte"; PEmit [CByteS "VT_ARRAY_BYTE"]; PRet]].

(* src/syntax/basic.syn:404-409 *)
Definition t_DIM_VAR_TYPE : list pline :=
  [[PLit "$"; PTab "PAR_EXPR"; PEmit [CTok T_PUSH_1; CTok T_ADD; CTok T_USHL; CByteS
      "VT_ARRAY_STRING"]; PRet];
   [PTab "PAR_EXPR"; PEmit [CTok T_PUSH_1; CTok T_ADD]; PTab "TYPE_BYTE"; PRet];
   [PTab "PAR_EXPR"; PEmit [CTok T_PUSH_1; CTok T_ADD; CTok T_USHL]; PTab "TYPE_WORD";
      PRet];
   [PTab "VAR_CREATE_TYPE"; PRet]].

(* src/syntax/basic.syn:411-414 *)
Definition t_DIM_VAR : list pline :=
  [[PExt "E_VAR_CREATE"; PExt "E_PUSH_VAR"; PTab "DIM_VAR_TYPE"; PExt "E_VAR_SET_TYPE";
      PEmit [CTok (T_Other "TOK_DIM")]; PExt "E_POP_VAR"; PRet];
   [PExt "E_VAR_WORD"; PExt "E_PUSH_VAR"; PRet];
   [PEmit [CByteS "VT_STRING"]; PExt "E_VAR_SEARCH"; PLit "$"; PExt "E_PUSH_VAR"; PRet]].

(* src/syntax/basic.syn:417-418, src/syntax/fileio.syn:36-37 *)
Definition t_IO_CHAN_OPT : list pline :=
  [[PTab "IO_CHAN"; PEmit [CTok T_IOCHN]; PLit ","; PRet];
   [PRet]].

(* src/syntax/basic.syn:420-421, src/syntax/fileio.syn:44-45 *)
Definition t_IO_CHAN_OPT_NOCOMMA : list pline :=
  [[PTab "IO_CHAN"; PEmit [CTok T_IOCHN]; PRet];
   [PRet]].

(* src/syntax/basic.syn:423, src/syntax/fileio.syn:40-41 *)
Definition t_IO_CHAN0 : list pline :=
  [[PEmit [CTok T_0]; PEmit [CTok T_IOCHN]; PRet]].

(* src/syntax/basic.syn:426-428 *)
Definition t_GETK_EXPR : list pline :=
  [[PTab "ARRAY_BYTE_ADDR"; PEmit [CTok T_SADDR; CTok T_GETKEY; CTok T_POKE]; PRet];
   [PTab "VAR_WORD_LVALUE_SADDR"; PEmit [CTok T_GETKEY; CTok T_DPOKE]; PRet]].

(* src/syntax/basic.syn:431-432 *)
Definition t_C_EXPR : list pline :=
  [[PLit ","; PEmit [CTok T_PUSH]; PTab "EXPR"; PRet]].

(* src/syntax/basic.syn:435-436 *)
Definition t_EXPR_AB : list pline :=
  [[PLit ","; PTab "EXPR"; PEmit [CTok T_USHL; CTok T_USHL; CTok T_USHL; CTok T_USHL];
      PTab "C_EXPR"; PEmit [CTok T_ADD]; PRet]].

(* src/syntax/basic.syn:439-441 *)
Definition t_DATA_WORDS : list pline :=
  [[PLit ","; PExt "E_NUMBER_WORD"; PTab "DATA_WORDS"; PRet];
   [PRet]].

(* src/syntax/basic.syn:443-446 *)
Definition t_DATA_BYTE : list pline :=
  [[PLit """"; PExt "E_CONST_STRING"; PRet];
   [PExt "E_NUMBER_BYTE"; PRet];
   [PEmit [CByteS "VT_ARRAY_BYTE"]; PExt "E_LABEL"; PRet]].

(* src/syntax/basic.syn:448-451 *)
Definition t_DATA_BYTES : list pline :=
  [[PTab "DATA_BYTE"; PLit ","; PTab "DATA_BYTES"; PRet];
   [PTab "DATA_BYTE"; PRet]].

(* src/syntax/basic.syn:454-455, src/syntax/extended.syn:39-41 *)
Definition t_DATA_EXT_TYPE : list pline :=
  [[PLit "ROM"; PExt "E_DATA_SET_ROM_SEG"; PRet];
   [PLit "["; PExt "E_DATA_SET_SEGMENT"; PLit "]"; PRet];
   [PRet]].

(* src/syntax/basic.syn:457-459, src/syntax/extended.syn:34-36 *)
Definition t_DATA_TYPE : list pline :=
  [[PTab "TYPE_BYTE"; PTab "DATA_EXT_TYPE"; PTab "EQUAL"; PExt "E_LABEL_SET_TYPE"; PTab
      "DATA_BYTES"; PRet];
   [PTab "TYPE_WORD"; PTab "DATA_EXT_TYPE"; PTab "EQUAL"; PExt "E_LABEL_SET_TYPE"; PExt
      "E_NUMBER_WORD"; PTab "DATA_WORDS"; PRet];
   [PTab "TYPE_BYTE"; PTab "DATA_FILE"; PRet];
   [PTab "TYPE_WORD"; PTab "DATA_FILE"; PRet]].

(* src/syntax/basic.syn:461-463 *)
Definition t_DATA_END : list pline :=
  [[PLit ","; PRet];
   [PExt "E_POP_PROC_DATA"; PRet]].

(* src/syntax/basic.syn:465-467 *)
Definition t_DATA_VAR : list pline :=
  [[PTab "DATA_TYPE"; PRet];
   [PExt "E_LABEL_CREATE"; PLit "()"; PEmit [CTok T_JUMP]; PExt "E_LABEL_DEF"; PTab
      "DATA_TYPE"; PRet]].

(* src/syntax/basic.syn:470-472 *)
Definition t_PAUSE_OPT : list pline :=
  [[PTab "EXPR"; PRet];
   [PExt "E_EOL"; PEmit [CTok T_0]; PRet]].

(* src/syntax/basic.syn:475-477 *)
Definition t_OPT_EXEC_PARAM : list pline :=
  [[PTab "EXPR"; PTab "EXEC_PARAM_MORE"; PEmit [CTok T_PUSH]; PRet];
   [PRet]].

(* src/syntax/basic.syn:479-481, src/syntax/extended.syn:45-46 *)
Definition t_EXEC_PARAM_MORE : list pline :=
  [[PExt "E_COUNT_PARAM"; PRet];
   [PTab "C_EXPR"; PTab "EXEC_PARAM_MORE"; PRet];
   [PRet]].

(* src/syntax/basic.syn:484-486 *)
Definition t_EXEC_CALL : list pline :=
  [[PLit "EXEc"; PRet];
   [PLit "@"; PRet]].

(* src/syntax/basic.syn:489-491, src/syntax/extended.syn:49-50,
   src/syntax/extended.syn:53-54 *)
Definition t_OPT_PROC_VAR : list pline :=
  [[PExt "E_COUNT_PARAM"; PRet];
   [PTab "VAR_WORD_SAVE"; PTab "OPT_PROC_VAR"; PEmit [CTok (T_Other "TOK_POP"); CTok
      T_VAR_STORE]; PExt "E_POP_VAR"; PRet];
   [PExt "E_PROC_CHECK"; PRet];
   [PRet]].

(* src/syntax/basic.syn:494-533, src/syntax/dli.syn:52-53,
   src/syntax/fileio.syn:65-71, src/syntax/pm.syn:33-35,
   src/syntax/graphics.syn:32-40, src/syntax/sound.syn:38-39, src/syntax/sio.syn:19-29
   *)
Definition t_STATEMENT : list pline :=
  [[PLit "."; PExt "E_REM"; PRet];
   [PLit "?"; PTab "IO_CHAN_OPT"; PTab "PRINT_EOL"; PTab "IO_CHAN0"; PRet];
   [PLit "PRInt"; PTab "IO_CHAN_OPT"; PTab "PRINT_EOL"; PTab "IO_CHAN0"; PRet];
   [PLit "INput"; PTab "INPUT_STR"; PTab "INPUT_VAR_LIST"; PTab "IO_CHAN0"; PRet];
   [PLit "GEt"; PTab "GETK_EXPR"; PRet];
   [PLit "PUt"; PTab "IO_CHAN_OPT"; PTab "EXPR"; PEmit [CTok T_PUT]; PTab "IO_CHAN0";
      PRet];
   [PLit "CLS"; PTab "IO_CHAN_OPT_NOCOMMA"; PEmit [CTok T_BYTE_PUT; CByte 125]; PTab
      "IO_CHAN0"; PRet];
   [PLit "Poke"; PTab "EXPR"; PEmit [CTok T_SADDR]; PLit ","; PTab "EXPR"; PEmit [CTok
      T_POKE]; PRet];
   [PLit "Dpoke"; PTab "EXPR"; PEmit [CTok T_SADDR]; PLit ","; PTab "EXPR"; PEmit [CTok
      T_DPOKE]; PRet];
   [PLit "MSet"; PTab "EXPR"; PTab "C_EXPR"; PTab "C_EXPR"; PEmit [CTok (T_Other
      "TOK_MSET")]; PRet];
   [PLit "Move"; PTab "EXPR"; PTab "C_EXPR"; PTab "C_EXPR"; PEmit [CTok (T_Other
      "TOK_MOVE")]; PRet];
   [PLit "-move"; PTab "EXPR"; PTab "C_EXPR"; PTab "C_EXPR"; PEmit [CTok (T_Other
      "TOK_NMOVE")]; PRet];
   [PLit "DO"; PExt "E_EOL"; PEmit [CByteS "LT_DO_LOOP"]; PExt "E_PUSH_LT"; PRet];
   [PLit "Loop"; PExt "E_EOL"; PEmit [CTok T_JUMP]; PExt "E_POP_LOOP"; PRet];
   [PLit "Repeat"; PExt "E_EOL"; PEmit [CByteS "LT_REPEAT"]; PExt "E_PUSH_LT"; PRet];
   [PLit "Until"; PTab "FORCE_BOOL_EXPR"; PEmit [CTok T_CJUMP]; PExt "E_POP_REPEAT";
      PRet];
   [PLit "While"; PEmit [CByteS "LT_WHILE_1"]; PExt "E_PUSH_LT"; PTab "FORCE_BOOL_EXPR";
      PEmit [CTok T_CJUMP; CByteS "LT_WHILE_2"]; PExt "E_PUSH_LT"; PRet];
   [PLit "WEnd"; PExt "E_EOL"; PEmit [CTok T_JUMP]; PExt "E_POP_WHILE"; PRet];
   [PLit "If"; PTab "FORCE_BOOL_EXPR"; PEmit [CTok T_CJUMP; CByteS "LT_IF"]; PExt
      "E_PUSH_LT"; PTab "THEN_OR_MULTILINE"; PRet];
   [PLit "For"; PTab "VAR_WORD_LVALUE_SADDR"; PTab "EQUAL"; PEmit [CTok T_PUSH]; PTab
      "EXPR"; PEmit [CTok T_DPOKE]; PLit "To"; PTab "EXPR"; PTab "STEP_OPTIONAL";
      PEmit [CTok (T_Other "TOK_FOR"); CTok T_CNJUMP; CByteS "LT_FOR_2"]; PExt
      "E_PUSH_LT"; PEmit [CByteS "LT_FOR_1"]; PExt "E_PUSH_LT"; PRet];
   [PLit "Next"; PEmit [CTok (T_Other "TOK_FOR_NEXT")]; PEmit [CTok T_CJUMP]; PTab
      "NEXT_VARNAME"; PExt "E_EOL"; PExt "E_POP_FOR"; PEmit [CTok (T_Other
      "TOK_FOR_EXIT")]; PRet];
   [PLit "ELse"; PExt "E_EOL"; PEmit [CTok T_JUMP]; PEmit [CByteS "LT_ELSE"]; PExt
      "E_ELSEIF"; PRet];
   [PLit "ELIf"; PEmit [CTok T_JUMP; CByteS "LT_ELIF"]; PExt "E_ELSEIF"; PTab
      "FORCE_BOOL_EXPR"; PEmit [CTok T_CJUMP; CByteS "LT_IF"]; PExt "E_PUSH_LT"; PRet];
   [PLit "Endif"; PExt "E_EOL"; PExt "E_POP_IF"; PRet];
   [PLit "EXit"; PEmit [CTok T_JUMP]; PExt "E_EXIT_LOOP"; PRet];
   [PLit "POSition"; PTab "POSITION"; PRet];
   [PLit "DIm"; PTab "DIM_VAR"; PTab "DIM_MORE"; PRet];
   [PLit "PAuse"; PTab "PAUSE_OPT"; PEmit [CTok (T_Other "TOK_PAUSE")]; PRet];
   [PLit "INC"; PTab "VAR_WORD_LVALUE_SADDR"; PEmit [CTok T_INC]; PRet];
   [PLit "DEc"; PTab "VAR_WORD_LVALUE_SADDR"; PEmit [CTok T_DEC]; PRet];
   [PLit "PRoc"; PExt "E_LABEL_CREATE"; PEmit [CTok T_JUMP]; PExt "E_LABEL_DEF"; PEmit
      [CByteS "LT_PROC_2"]; PExt "E_PUSH_LT"; PTab "OPT_PROC_VAR"; PRet];
   [PLit "ENDProc"; PExt "E_POP_PROC_2"; PEmit [CTok T_RET]; PExt "E_POP_PROC_DATA";
      PRet];
   [PTab "EXEC_CALL"; PExt "E_LABEL_CREATE"; PTab "OPT_EXEC_PARAM"; PEmit [CTok T_CALL];
      PExt "E_DO_EXEC"; PRet];
   [PLit "DAta"; PTab "DATA_VAR"; PTab "DATA_END"; PRet];
   [PLit "END"; PEmit [CTok T_END]; PRet];
   [PLit "Timer"; PEmit [CTok T_0; CTok T_BYTE_POKE; CByte 19; CTok T_0; CTok
      T_BYTE_POKE; CByte 20]; PRet];
   [PLit "CLR"; PEmit [CTok T_NUM; CWordS "CLEAR_DATA"; CTok (T_Other "TOK_USR_ADDR");
      CTok (T_Other "TOK_USR_CALL")]; PRet];
   [PLit "DLi"; PTab "DLI_COMMAND"; PRet];
   [PLit "GEt"; PTab "IO_CHAN"; PEmit [CTok T_IOCHN]; PTab "GET_EXPR"; PRet];
   [PLit "CLose"; PTab "IO_CHAN"; PEmit [CTok (T_Other "TOK_CLOSE")]; PRet];
   [PLit "Open"; PTab "IO_CHAN"; PEmit [CTok T_PUSH_BYTE; CByte 3]; PTab "XIO_EXPR";
      PRet];
   [PLit "Xio"; PTab "IO_CHAN"; PTab "C_EXPR"; PTab "XIO_EXPR"; PRet];
   [PLit "BPut"; PTab "IO_CHAN"; PTab "C_EXPR"; PTab "C_EXPR"; PEmit [CTok (T_Other
      "TOK_BPUT")]; PRet];
   [PLit "BGet"; PTab "IO_CHAN"; PTab "C_EXPR"; PTab "C_EXPR"; PEmit [CTok (T_Other
      "TOK_BGET")]; PRet];
   [PLit "PMGraphics"; PTab "EXPR"; PEmit [CTok (T_Other "TOK_PMGRAPHICS")]; PRet];
   [PLit "PMhpos"; PTab "EXPR"; PEmit [CTok T_PUSH_NUM; CWord 53248; CTok T_ADD; CTok
      T_SADDR]; PLit ","; PTab "EXPR"; PEmit [CTok T_POKE]; PRet];
   [PLit "Graphics"; PEmit [CTok T_0; CTok (T_Other "TOK_PMGRAPHICS"); CTok T_BYTE; CByte
      6; CTok (T_Other "TOK_CLOSE")]; PTab "EXPR"; PEmit [CTok (T_Other
      "TOK_GRAPHICS")]; PRet];
   [PLit "Color"; PTab "EXPR"; PEmit [CTok T_BYTE_POKE; CByteS "COLOR"]; PRet];
   [PLit "FColor"; PTab "EXPR"; PEmit [CTok T_NUM_POKE; CWord 765]; PRet];
   [PLit "LOCate"; PTab "POSITION"; PEmit [CTok T_BYTE; CByte 6; CTok T_IOCHN]; PTab
      "GET_EXPR"; PRet];
   [PLit "PLot"; PTab "POSITION"; PEmit [CTok T_BYTE; CByte 6; CTok T_IOCHN; CTok
      T_BYTE_PEEK; CByteS "COLOR"; CTok T_PUT]; PTab "IO_CHAN0"; PRet];
   [PLit "DRawto"; PTab "POSITION"; PEmit [CTok T_BYTE; CByte 17; CTok (T_Other
      "TOK_DRAWTO")]; PRet];
   [PLit "FIllto"; PTab "POSITION"; PEmit [CTok T_BYTE; CByte 18; CTok (T_Other
      "TOK_DRAWTO")]; PRet];
   [PLit "SEtcolor"; PTab "EXPR"; PEmit [CTok T_PUSH_NUM; CWord 708; CTok T_ADD; CTok
      T_SADDR]; PTab "EXPR_AB"; PEmit [CTok T_POKE]; PRet];
   [PLit "Sound"; PTab "SOUND"; PRet];
   [PLit "SIo"; PTab "EXPR"; PEmit [CTok T_NUM_POKE; CWord 768]; PLit ","; PTab "EXPR";
      PEmit [CTok T_NUM_POKE; CWord 769]; PLit ","; PTab "EXPR"; PEmit [CTok
      T_NUM_POKE; CWord 770]; PLit ","; PTab "EXPR"; PEmit [CTok T_NUM_POKE; CWord
      771]; PLit ","; PEmit [CTok T_NUM; CWord 772; CTok T_SADDR]; PTab "EXPR"; PEmit
      [CTok T_DPOKE]; PLit ","; PTab "EXPR"; PEmit [CTok T_NUM_POKE; CWord 774]; PLit
      ","; PEmit [CTok T_NUM; CWord 776; CTok T_SADDR]; PTab "EXPR"; PEmit [CTok
      T_DPOKE]; PLit ","; PTab "EXPR"; PEmit [CTok T_NUM_POKE; CWord 778]; PLit ",";
      PTab "EXPR"; PEmit [CTok T_NUM_POKE; CWord 779]; PEmit [CTok T_NUM; CWord 58457;
      CTok (T_Other "TOK_USR_ADDR"); CTok (T_Other "TOK_USR_CALL")]; PRet]].

(* src/syntax/basic.syn:535-541 *)
Definition t_LINE_ASSIGNMENT : list pline :=
  [[PTab "VAR_WORD_SAVE"; PTab "EQUAL"; PTab "EXPR"; PEmit [CTok T_VAR_STORE]; PExt
      "E_POP_VAR"; PRet];
   [PTab "VAR_WORD_LVALUE_SADDR"; PTab "EQUAL"; PTab "EXPR"; PEmit [CTok T_DPOKE]; PRet];
   [PTab "ARRAY_BYTE_ADDR"; PEmit [CTok T_SADDR]; PTab "EQUAL"; PTab "EXPR"; PEmit [CTok
      T_POKE]; PRet];
   [PTab "VAR_STR_LVALUE_SADDR"; PTab "EQUAL"; PTab "STR_EXPR"; PEmit [CTok (T_Other
      "TOK_COPY_STR")]; PRet];
   [PTab "VAR_STR_LVALUE_SADDR"; PTab "EQUAL"; PLit "+"; PTab "STR_EXPR"; PEmit [CTok
      (T_Other "TOK_CAT_STR")]; PRet];
   [PRet]].

(* src/syntax/basic.syn:543-545 *)
Definition t_PARSE_START : list pline :=
  [[PTab "STATEMENT"; PExt "E_EOL"; PRet];
   [PTab "LINE_ASSIGNMENT"; PExt "E_EOL"; PRet]].

(* src/syntax/dli.syn:24-36 *)
Definition t_DLI_COMMAND : list pline :=
  [[PLit "Set"; PExt "E_LABEL_CREATE"; PEmit [CTok T_JUMP]; PExt "E_LABEL_DEF"; PEmit
      [CByteS "VT_ARRAY_BYTE"]; PExt "E_LABEL_SET_TYPE"; PEmit [CByte 72; CByte 138;
      CByte 72; CByte 166; CByte 79]; PTab "EQUAL"; PTab "DLI_LDA"; PEmit [CByte 141;
      CWord 54282]; PTab "DLI_STA"; PTab "DLI_MORE"; PRet];
   [PTab "EQUAL"; PTab "DLI_LDA"; PTab "DLI_STA"; PTab "DLI_MORE"; PRet];
   [PEmit [CTok T_0; CTok (T_Other "TOK_PAUSE"); CTok T_NUM; CWord 512; CTok T_SADDR;
      CTok T_NUM; CByteS "VT_ARRAY_BYTE"]; PExt "E_LABEL"; PEmit [CTok T_DPOKE; CTok
      T_BYTE; CByte 192; CTok T_NUM_POKE; CWord 54286]; PRet];
   [PEmit [CTok T_BYTE; CByte 64; CTok T_NUM_POKE; CWord 54286]; PRet]].

(* src/syntax/dli.syn:38-42 *)
Definition t_DLI_MORE : list pline :=
  [[PTab "DLI_STA"; PTab "DLI_MORE"; PRet];
   [PLit ","; PTab "DLI_LDA"; PTab "DLI_STA"; PTab "DLI_MORE"; PRet];
   [PLit ","; PRet];
   [PEmit [CByte 230; CByte 79; CByte 104; CByte 170; CByte 104; CByte 64]; PExt
      "E_POP_PROC_DATA"; PRet]].

(* src/syntax/dli.syn:44-46 *)
Definition t_DLI_LDA : list pline :=
  [[PEmit [CByte 189; CByteS "VT_ARRAY_BYTE"]; PExt "E_LABEL"; PRet];
   [PEmit [CByte 169]; PExt "E_NUMBER_BYTE"; PRet]].

(* src/syntax/dli.syn:48-50 *)
Definition t_DLI_STA : list pline :=
  [[PLit "Into"; PEmit [CByte 141]; PExt "E_NUMBER_WORD"; PRet];
   [PLit "Wsync"; PEmit [CByte 141; CWord 54282]; PTab "DLI_STA"; PRet]].

(* src/syntax/fileio.syn:33-34 *)
Definition t_IO_CHAN : list pline :=
  [[PLit "#"; PTab "EXPR"; PRet]].

(* src/syntax/fileio.syn:48-50 *)
Definition t_GET_EXPR : list pline :=
  [[PLit ","; PTab "ARRAY_BYTE_ADDR"; PEmit [CTok T_SADDR; CTok T_GET; CTok T_POKE]; PTab
      "GET_EXPR_MORE"; PRet];
   [PLit ","; PTab "VAR_WORD_LVALUE_SADDR"; PEmit [CTok T_GET; CTok T_DPOKE]; PTab
      "GET_EXPR_MORE"; PRet]].

(* src/syntax/fileio.syn:52-54 *)
Definition t_GET_EXPR_MORE : list pline :=
  [[PTab "GET_EXPR"; PRet];
   [PTab "IO_CHAN0"; PRet]].

(* src/syntax/fileio.syn:57-58 *)
Definition t_XIO_EXPR : list pline :=
  [[PTab "C_EXPR"; PTab "C_EXPR"; PEmit [CTok T_SHL8; CTok T_ADD; CTok T_PUSH]; PLit ",";
      PTab "STR_EXPR"; PEmit [CTok (T_Other "TOK_XIO")]; PRet]].

(* src/syntax/sound.syn:27-32 *)
Definition t_SOUND : list pline :=
  [[PTab "SOUND_S1"; PLit ","; PTab "EXPR"; PEmit [CTok T_PUSH]; PTab "EXPR_AB"; PEmit
      [CTok T_SHL8; CTok T_ADD; CTok T_DPOKE; CTok T_0; CTok T_NUM_POKE; CWord 53768;
      CTok T_BYTE; CByte 3; CTok T_NUM_POKE; CWord 53775]; PRet];
   [PTab "SOUND_S1"; PEmit [CTok T_0; CTok T_DPOKE]; PRet];
   [PEmit [CTok T_NUM; CWordS "SOUND_OFF"; CTok (T_Other "TOK_USR_ADDR"); CTok (T_Other
      "TOK_USR_CALL")]; PRet]].

(* src/syntax/sound.syn:34-35 *)
Definition t_SOUND_S1 : list pline :=
  [[PTab "EXPR"; PEmit [CTok T_USHL; CTok T_PUSH_NUM; CWord 53760; CTok T_ADD; CTok
      T_SADDR]; PRet]].

(* src/syntax/extended.syn:30-31 *)
Definition t_DATA_FILE : list pline :=
  [[PLit "File"; PTab "DATA_EXT_TYPE"; PExt "E_LABEL_SET_TYPE"; PLit """"; PExt
      "E_DATA_FILE"; PRet]].

(* All the tables of the integer version (compiler/atari-int.tgt). *)
Definition tables_int : tables :=
  [("INT_EXPR", t_INT_EXPR);
   ("PUSH_T_EXPR", t_PUSH_T_EXPR);
   ("INT_EXPR_MORE", t_INT_EXPR_MORE);
   ("M_EXPR_MORE", t_M_EXPR_MORE);
   ("BIT_EXPR_MORE", t_BIT_EXPR_MORE);
   ("ADR_EXPR", t_ADR_EXPR);
   ("USR_EXPR_MORE", t_USR_EXPR_MORE);
   ("T_EXPR", t_T_EXPR);
   ("INT_FUNCTIONS", t_INT_FUNCTIONS);
   ("RD_PORT", t_RD_PORT);
   ("PAR_EXPR", t_PAR_EXPR);
   ("OR_AND_BOOL", t_OR_AND_BOOL);
   ("TEST_BOOL_EXPR", t_TEST_BOOL_EXPR);
   ("EXPR", t_EXPR);
   ("FORCE_BOOL_EXPR", t_FORCE_BOOL_EXPR);
   ("OR_EXPR_RIGHT", t_OR_EXPR_RIGHT);
   ("OR_EXPR_MORE", t_OR_EXPR_MORE);
   ("AND_EXPR_RIGHT", t_AND_EXPR_RIGHT);
   ("AND_EXPR_MORE", t_AND_EXPR_MORE);
   ("NOT_EXPR", t_NOT_EXPR);
   ("COMP_OR_BOOL", t_COMP_OR_BOOL);
   ("COMP_EXPR_RIGHT", t_COMP_EXPR_RIGHT);
   ("PCMP_STR_EXPR", t_PCMP_STR_EXPR);
   ("COMP_STR_RIGHT", t_COMP_STR_RIGHT);
   ("COMP_EXPR_MORE", t_COMP_EXPR_MORE);
   ("STR_EXPR", t_STR_EXPR);
   ("OPT_STR_INDEX", t_OPT_STR_INDEX);
   ("STRING_FUNCTIONS", t_STRING_FUNCTIONS);
   ("PRINT_SEP", t_PRINT_SEP);
   ("PRINT_ONE", t_PRINT_ONE);
   ("PRINT_NO_EOL", t_PRINT_NO_EOL);
   ("PRINT_EOL", t_PRINT_EOL);
   ("THEN_OR_MULTILINE", t_THEN_OR_MULTILINE);
   ("VAR_CREATE_TYPE", t_VAR_CREATE_TYPE);
   ("VAR_WORD_LVALUE_SADDR", t_VAR_WORD_LVALUE_SADDR);
   ("VAR_STR_LVALUE_SADDR", t_VAR_STR_LVALUE_SADDR);
   ("VAR_WORD_SAVE", t_VAR_WORD_SAVE);
   ("EQUAL", t_EQUAL);
   ("STEP_OPTIONAL", t_STEP_OPTIONAL);
   ("NEXT_VARNAME", t_NEXT_VARNAME);
   ("POSITION", t_POSITION);
   ("ARRAY_WORD_ADDR", t_ARRAY_WORD_ADDR);
   ("ARRAY_STRING_ADDR", t_ARRAY_STRING_ADDR);
   ("ARRAY_BYTE_ADDR", t_ARRAY_BYTE_ADDR);
   ("DIM_MORE", t_DIM_MORE);
   ("INPUT_STR", t_INPUT_STR);
   ("INPUT_VAR_LIST", t_INPUT_VAR_LIST);
   ("INPUT_VAR_MORE", t_INPUT_VAR_MORE);
   ("INPUT_VAR", t_INPUT_VAR);
   ("TYPE_WORD", t_TYPE_WORD);
   ("TYPE_BYTE", t_TYPE_BYTE);
   ("DIM_VAR_TYPE", t_DIM_VAR_TYPE);
   ("DIM_VAR", t_DIM_VAR);
   ("IO_CHAN_OPT", t_IO_CHAN_OPT);
   ("IO_CHAN_OPT_NOCOMMA", t_IO_CHAN_OPT_NOCOMMA);
   ("IO_CHAN0", t_IO_CHAN0);
   ("GETK_EXPR", t_GETK_EXPR);
   ("C_EXPR", t_C_EXPR);
   ("EXPR_AB", t_EXPR_AB);
   ("DATA_WORDS", t_DATA_WORDS);
   ("DATA_BYTE", t_DATA_BYTE);
   ("DATA_BYTES", t_DATA_BYTES);
   ("DATA_EXT_TYPE", t_DATA_EXT_TYPE);
   ("DATA_TYPE", t_DATA_TYPE);
   ("DATA_END", t_DATA_END);
   ("DATA_VAR", t_DATA_VAR);
   ("PAUSE_OPT", t_PAUSE_OPT);
   ("OPT_EXEC_PARAM", t_OPT_EXEC_PARAM);
   ("EXEC_PARAM_MORE", t_EXEC_PARAM_MORE);
   ("EXEC_CALL", t_EXEC_CALL);
   ("OPT_PROC_VAR", t_OPT_PROC_VAR);
   ("STATEMENT", t_STATEMENT);
   ("LINE_ASSIGNMENT", t_LINE_ASSIGNMENT);
   ("PARSE_START", t_PARSE_START);
   ("DLI_COMMAND", t_DLI_COMMAND);
   ("DLI_MORE", t_DLI_MORE);
   ("DLI_LDA", t_DLI_LDA);
   ("DLI_STA", t_DLI_STA);
   ("IO_CHAN", t_IO_CHAN);
   ("GET_EXPR", t_GET_EXPR);
   ("GET_EXPR_MORE", t_GET_EXPR_MORE);
   ("XIO_EXPR", t_XIO_EXPR);
   ("SOUND", t_SOUND);
   ("SOUND_S1", t_SOUND_S1);
   ("DATA_FILE", t_DATA_FILE)].

(* src/syntax/basic.syn:137-144, src/syntax/float.syn:88-90 *)
Definition f_ADR_EXPR : list pline :=
  [[PTab "STR_EXPR"; PRet];
   [PEmit [CTok T_VAR_LOAD; CByteS "VT_ARRAY_WORD"]; PExt "E_VAR_SEARCH"; PRet];
   [PEmit [CTok T_VAR_LOAD; CByteS "VT_ARRAY_BYTE"]; PExt "E_VAR_SEARCH"; PRet];
   [PEmit [CTok T_NUM; CByteS "VT_ARRAY_WORD"]; PExt "E_LABEL"; PRet];
   [PEmit [CTok T_NUM; CByteS "VT_ARRAY_BYTE"]; PExt "E_LABEL"; PRet];
   [PEmit [CTok T_VAR_LOAD; CByteS "VT_ARRAY_STRING"]; PExt "E_VAR_SEARCH"; PRet];
   [PEmit [CTok T_VAR_ADDR]; PExt "E_VAR_WORD"; PRet];
   [PEmit [CTok T_VAR_LOAD; CByteS "VT_ARRAY_FLOAT"]; PExt "E_VAR_SEARCH"; PLit "%";
      PRet];
   [PEmit [CTok T_VAR_ADDR; CByteS "VT_FLOAT"]; PExt "E_VAR_SEARCH"; PLit "%"; PRet]].

(* src/syntax/basic.syn:159-187, src/syntax/pm.syn:29-32, src/syntax/sio.syn:31-32,
   src/syntax/float.syn:92-93 *)
Definition f_INT_FUNCTIONS : list pline :=
  [[PLit "Not"; PTab "NOT_EXPR"; PEmit [CTok T_L_NOT]; PRet];
   [PLit "Time"; PEmit [CTok (T_Other "TOK_TIME")]; PRet];
   [PTab "ARRAY_WORD_ADDR"; PEmit [CTok (T_Other "TOK_DPEEK")]; PRet];
   [PTab "ARRAY_BYTE_ADDR"; PEmit [CTok T_PEEK]; PRet];
   [PLit "Fre()"; PEmit [CTok T_NUM; CWordS "MEMTOP"; CTok (T_Other "TOK_DPEEK"); CTok
      T_PUSH_BYTE; CByteS "BASIC_TOP"; CTok (T_Other "TOK_DPEEK"); CTok T_SUB]; PRet];
   [PLit "Err()"; PEmit [CTok T_BYTE_PEEK; CByteS "IOERROR"]; PRet];
   [PLit "Key()"; PEmit [CTok T_NUM; CWord 764; CTok T_PEEK; CTok T_PUSH_BYTE; CByte 255;
      CTok T_BIT_EXOR]; PRet];
   [PEmit [CTok T_VAR_LOAD]; PExt "E_VAR_WORD"; PRet];
   [PLit "Abs"; PTab "T_EXPR"; PEmit [CTok (T_Other "TOK_ABS")]; PRet];
   [PLit "SGn"; PTab "T_EXPR"; PEmit [CTok (T_Other "TOK_SGN")]; PRet];
   [PLit "Peek"; PTab "T_EXPR"; PEmit [CTok T_PEEK]; PRet];
   [PLit "PAddle"; PEmit [CTok T_NUM; CWord 624; CTok T_PUSH_BYTE; CByte 7]; PTab
      "RD_PORT"; PRet];
   [PLit "PTrig"; PEmit [CTok T_NUM; CWord 636; CTok T_PUSH_BYTE; CByte 7]; PTab
      "RD_PORT"; PRet];
   [PLit "Stick"; PEmit [CTok T_NUM; CWord 632; CTok T_PUSH_BYTE; CByte 3]; PTab
      "RD_PORT"; PRet];
   [PLit "STRig"; PEmit [CTok T_NUM; CWord 644; CTok T_PUSH_BYTE; CByte 3]; PTab
      "RD_PORT"; PRet];
   [PLit "Rand"; PTab "T_EXPR"; PEmit [CTok (T_Other "TOK_RAND")]; PRet];
   [PLit "Dpeek"; PTab "T_EXPR"; PEmit [CTok (T_Other "TOK_DPEEK")]; PRet];
   [PLit "USR("; PTab "EXPR"; PEmit [CTok (T_Other "TOK_USR_ADDR")]; PTab
      "USR_EXPR_MORE"; PLit ")"; PEmit [CTok (T_Other "TOK_USR_CALL")]; PRet];
   [PLit "ADR("; PTab "ADR_EXPR"; PLit ")"; PRet];
   [PLit "&"; PTab "ADR_EXPR"; PRet];
   [PLit "Len"; PTab "STR_EXPR"; PEmit [CTok T_PEEK]; PRet];
   [PLit "Val"; PTab "STR_EXPR"; PEmit [CTok (T_Other "TOK_VAL")]; PRet];
   [PLit "ASc"; PTab "STR_EXPR"; PEmit [CTok T_PUSH_1; CTok T_ADD; CTok T_PEEK]; PRet];
   [PLit "PMadr"; PTab "T_EXPR"; PEmit [CTok T_PUSH_BYTE; CByte 4; CTok T_ADD; CTok
      T_PUSH_NUM; CWordS "PMGMODE"; CTok T_PEEK; CTok T_USHL; CTok T_MUL; CTok
      T_PUSH_NUM; CWordS "PMGBASE"; CTok T_PEEK; CTok T_SHL8; CTok T_ADD]; PRet];
   [PLit "SErr()"; PEmit [CTok T_NUM; CWord 771; CTok T_PEEK]; PRet];
   [PLit "Int"; PTab "FP_T_EXPR"; PEmit [CTok (T_Other "TOK_FP_INT")]; PRet]].

(* src/syntax/basic.syn:202-205, src/syntax/float.syn:111-112 *)
Definition f_TEST_BOOL_EXPR : list pline :=
  [[PEmit [CTok T_COMP_0]; PTab "OR_AND_BOOL"; PRet];
   [PEmit [CTok T_PUSH]; PTab "COMP_EXPR_RIGHT"; PTab "AND_EXPR_MORE"; PTab
      "OR_EXPR_MORE"; PTab "COMP_EXPR_MORE"; PRet];
   [PEmit [CTok (T_Other "TOK_INT_FP")]; PTab "COMP_FP_RIGHT"; PTab "OR_EXPR_MORE"; PTab
      "AND_EXPR_MORE"; PTab "COMP_EXPR_MORE"; PRet];
   [PRet]].

(* src/syntax/basic.syn:208-210, src/syntax/float.syn:114-115 *)
Definition f_EXPR : list pline :=
  [[PTab "INT_EXPR"; PTab "TEST_BOOL_EXPR"; PRet];
   [PTab "STR_EXPR"; PTab "COMP_STR_RIGHT"; PRet];
   [PTab "FP_EXPR"; PTab "COMP_FP_RIGHT"; PRet]].

(* src/syntax/basic.syn:230-233, src/syntax/float.syn:117-118 *)
Definition f_NOT_EXPR : list pline :=
  [[PLit "Not"; PTab "NOT_EXPR"; PEmit [CTok T_L_NOT]; PRet];
   [PTab "INT_EXPR"; PTab "COMP_OR_BOOL"; PRet];
   [PTab "STR_EXPR"; PTab "COMP_STR_RIGHT"; PRet];
   [PTab "FP_EXPR"; PTab "COMP_FP_RIGHT"; PRet]].

(* src/syntax/basic.syn:235-237, src/syntax/float.syn:108-109 *)
Definition f_COMP_OR_BOOL : list pline :=
  [[PEmit [CTok T_PUSH]; PTab "COMP_EXPR_RIGHT"; PTab "COMP_EXPR_MORE"; PRet];
   [PEmit [CTok (T_Other "TOK_INT_FP")]; PTab "COMP_FP_RIGHT"; PTab "COMP_EXPR_MORE";
      PRet];
   [PEmit [CTok T_COMP_0]; PRet]].

(* src/syntax/basic.syn:274-285, src/syntax/float.syn:95-96 *)
Definition f_STRING_FUNCTIONS : list pline :=
  [[PLit """"; PEmit [CTok T_CSTRING]; PExt "E_CONST_STRING"; PRet];
   [PLit "CHR$"; PTab "T_EXPR"; PEmit [CTok T_CHR]; PRet];
   [PLit "STR$"; PTab "T_EXPR"; PEmit [CTok (T_Other "TOK_INT_STR")]; PRet];
   [PLit "$"; PTab "PAR_EXPR"; PRet];
   [PEmit [CTok T_VAR_LOAD; CByteS "VT_STRING"]; PExt "E_VAR_SEARCH"; PLit "$"; PRet];
   [PTab "ARRAY_STRING_ADDR"; PEmit [CTok (T_Other "TOK_DPEEK")]; PRet];
   [PLit "STR$"; PTab "FP_T_EXPR"; PEmit [CTok (T_Other "TOK_FP_STR")]; PRet]].

(* src/syntax/basic.syn:299-301, src/syntax/float.syn:121-122 *)
Definition f_PRINT_ONE : list pline :=
  [[PTab "EXPR"; PEmit [CTok (T_Other "TOK_INT_STR")]; PRet];
   [PTab "STR_EXPR"; PRet];
   [PTab "FP_EXPR"; PEmit [CTok (T_Other "TOK_FP_STR")]; PRet]].

(* src/syntax/basic.syn:319-321, src/syntax/float.syn:139-140 *)
Definition f_VAR_CREATE_TYPE : list pline :=
  [[PLit "$"; PEmit [CByteS "VT_STRING"]; PRet];
   [PLit "%"; PEmit [CByteS "VT_FLOAT"]; PRet];
   [PEmit [CByteS "VT_WORD"]; PRet]].

(* src/syntax/basic.syn:390-393, src/syntax/float.syn:124-125 *)
Definition f_INPUT_VAR : list pline :=
  [[PTab "VAR_WORD_LVALUE_SADDR"; PEmit [CTok (T_Other "TOK_INPUT_STR"); CTok (T_Other
      "TOK_VAL"); CTok T_DPOKE]; PRet];
   [PTab "ARRAY_BYTE_ADDR"; PEmit [CTok T_SADDR; CTok (T_Other "TOK_INPUT_STR"); CTok
      (T_Other "TOK_VAL"); CTok T_POKE]; PRet];
   [PTab "VAR_STR_LVALUE_SADDR"; PEmit [CTok (T_Other "TOK_INPUT_STR"); CTok (T_Other
      "TOK_COPY_STR")]; PRet];
   [PTab "VAR_FP_LVALUE_SADDR"; PEmit [CTok (T_Other "TOK_INPUT_STR"); CTok (T_Other
      "TOK_FP_VAL"); CTok (T_Other "TOK_FP_STORE")]; PRet]].

(* src/syntax/basic.syn:404-409, src/syntax/float.syn:132-133 *)
Definition f_DIM_VAR_TYPE : list pline :=
  [[PLit "%"; PTab "PAR_EXPR"; PEmit [CTok T_PUSH_1; CTok T_ADD; CTok (T_Other
      "TOK_MUL6"); CByteS "VT_ARRAY_FLOAT"]; PRet];
   [PLit "$"; PTab "PAR_EXPR"; PEmit [CTok T_PUSH_1; CTok T_ADD; CTok T_USHL; CByteS
      "VT_ARRAY_STRING"]; PRet];
   [PTab "PAR_EXPR"; PEmit [CTok T_PUSH_1; CTok T_ADD]; PTab "TYPE_BYTE"; PRet];
   [PTab "PAR_EXPR"; PEmit [CTok T_PUSH_1; CTok T_ADD; CTok T_USHL]; PTab "TYPE_WORD";
      PRet];
   [PTab "VAR_CREATE_TYPE"; PRet]].

(* src/syntax/basic.syn:411-414, src/syntax/float.syn:135-136 *)
Definition f_DIM_VAR : list pline :=
  [[PExt "E_VAR_CREATE"; PExt "E_PUSH_VAR"; PTab "DIM_VAR_TYPE"; PExt "E_VAR_SET_TYPE";
      PEmit [CTok (T_Other "TOK_DIM")]; PExt "E_POP_VAR"; PRet];
   [PExt "E_VAR_WORD"; PExt "E_PUSH_VAR"; PRet];
   [PEmit [CByteS "VT_STRING"]; PExt "E_VAR_SEARCH"; PLit "$"; PExt "E_PUSH_VAR"; PRet];
   [PEmit [CByteS "VT_FLOAT"]; PExt "E_VAR_SEARCH"; PLit "%"; PExt "E_PUSH_VAR"; PRet]].

(* src/syntax/basic.syn:494-533, src/syntax/dli.syn:52-53,
   src/syntax/fileio.syn:65-71, src/syntax/pm.syn:33-35,
   src/syntax/graphics.syn:32-40, src/syntax/sound.syn:38-39,
   src/syntax/sio.syn:19-29, src/syntax/float.syn:148-150,
   src/syntax/fujinet.syn:24-72 *)
Definition f_STATEMENT : list pline :=
  [[PLit "."; PExt "E_REM"; PRet];
   [PLit "?"; PTab "IO_CHAN_OPT"; PTab "PRINT_EOL"; PTab "IO_CHAN0"; PRet];
   [PLit "PRInt"; PTab "IO_CHAN_OPT"; PTab "PRINT_EOL"; PTab "IO_CHAN0"; PRet];
   [PLit "INput"; PTab "INPUT_STR"; PTab "INPUT_VAR_LIST"; PTab "IO_CHAN0"; PRet];
   [PLit "GEt"; PTab "GETK_EXPR"; PRet];
   [PLit "PUt"; PTab "IO_CHAN_OPT"; PTab "EXPR"; PEmit [CTok T_PUT]; PTab "IO_CHAN0";
      PRet];
   [PLit "CLS"; PTab "IO_CHAN_OPT_NOCOMMA"; PEmit [CTok T_BYTE_PUT; CByte 125]; PTab
      "IO_CHAN0"; PRet];
   [PLit "Poke"; PTab "EXPR"; PEmit [CTok T_SADDR]; PLit ","; PTab "EXPR"; PEmit [CTok
      T_POKE]; PRet];
   [PLit "Dpoke"; PTab "EXPR"; PEmit [CTok T_SADDR]; PLit ","; PTab "EXPR"; PEmit [CTok
      T_DPOKE]; PRet];
   [PLit "MSet"; PTab "EXPR"; PTab "C_EXPR"; PTab "C_EXPR"; PEmit [CTok (T_Other
      "TOK_MSET")]; PRet];
   [PLit "Move"; PTab "EXPR"; PTab "C_EXPR"; PTab "C_EXPR"; PEmit [CTok (T_Other
      "TOK_MOVE")]; PRet];
   [PLit "-move"; PTab "EXPR"; PTab "C_EXPR"; PTab "C_EXPR"; PEmit [CTok (T_Other
      "TOK_NMOVE")]; PRet];
   [PLit "DO"; PExt "E_EOL"; PEmit [CByteS "LT_DO_LOOP"]; PExt "E_PUSH_LT"; PRet];
   [PLit "Loop"; PExt "E_EOL"; PEmit [CTok T_JUMP]; PExt "E_POP_LOOP"; PRet];
   [PLit "Repeat"; PExt "E_EOL"; PEmit [CByteS "LT_REPEAT"]; PExt "E_PUSH_LT"; PRet];
   [PLit "Until"; PTab "FORCE_BOOL_EXPR"; PEmit [CTok T_CJUMP]; PExt "E_POP_REPEAT";
      PRet];
   [PLit "While"; PEmit [CByteS "LT_WHILE_1"]; PExt "E_PUSH_LT"; PTab "FORCE_BOOL_EXPR";
      PEmit [CTok T_CJUMP; CByteS "LT_WHILE_2"]; PExt "E_PUSH_LT"; PRet];
   [PLit "WEnd"; PExt "E_EOL"; PEmit [CTok T_JUMP]; PExt "E_POP_WHILE"; PRet];
   [PLit "If"; PTab "FORCE_BOOL_EXPR"; PEmit [CTok T_CJUMP; CByteS "LT_IF"]; PExt
      "E_PUSH_LT"; PTab "THEN_OR_MULTILINE"; PRet];
   [PLit "For"; PTab "VAR_WORD_LVALUE_SADDR"; PTab "EQUAL"; PEmit [CTok T_PUSH]; PTab
      "EXPR"; PEmit [CTok T_DPOKE]; PLit "To"; PTab "EXPR"; PTab "STEP_OPTIONAL";
      PEmit [CTok (T_Other "TOK_FOR"); CTok T_CNJUMP; CByteS "LT_FOR_2"]; PExt
      "E_PUSH_LT"; PEmit [CByteS "LT_FOR_1"]; PExt "E_PUSH_LT"; PRet];
   [PLit "Next"; PEmit [CTok (T_Other "TOK_FOR_NEXT")]; PEmit [CTok T_CJUMP]; PTab
      "NEXT_VARNAME"; PExt "E_EOL"; PExt "E_POP_FOR"; PEmit [CTok (T_Other
      "TOK_FOR_EXIT")]; PRet];
   [PLit "ELse"; PExt "E_EOL"; PEmit [CTok T_JUMP]; PEmit [CByteS "LT_ELSE"]; PExt
      "E_ELSEIF"; PRet];
   [PLit "ELIf"; PEmit [CTok T_JUMP; CByteS "LT_ELIF"]; PExt "E_ELSEIF"; PTab
      "FORCE_BOOL_EXPR"; PEmit [CTok T_CJUMP; CByteS "LT_IF"]; PExt "E_PUSH_LT"; PRet];
   [PLit "Endif"; PExt "E_EOL"; PExt "E_POP_IF"; PRet];
   [PLit "EXit"; PEmit [CTok T_JUMP]; PExt "E_EXIT_LOOP"; PRet];
   [PLit "POSition"; PTab "POSITION"; PRet];
   [PLit "DIm"; PTab "DIM_VAR"; PTab "DIM_MORE"; PRet];
   [PLit "PAuse"; PTab "PAUSE_OPT"; PEmit [CTok (T_Other "TOK_PAUSE")]; PRet];
   [PLit "INC"; PTab "VAR_WORD_LVALUE_SADDR"; PEmit [CTok T_INC]; PRet];
   [PLit "DEc"; PTab "VAR_WORD_LVALUE_SADDR"; PEmit [CTok T_DEC]; PRet];
   [PLit "PRoc"; PExt "E_LABEL_CREATE"; PEmit [CTok T_JUMP]; PExt "E_LABEL_DEF"; PEmit
      [CByteS "LT_PROC_2"]; PExt "E_PUSH_LT"; PTab "OPT_PROC_VAR"; PRet];
   [PLit "ENDProc"; PExt "E_POP_PROC_2"; PEmit [CTok T_RET]; PExt "E_POP_PROC_DATA";
      PRet];
   [PTab "EXEC_CALL"; PExt "E_LABEL_CREATE"; PTab "OPT_EXEC_PARAM"; PEmit [CTok T_CALL];
      PExt "E_DO_EXEC"; PRet];
   [PLit "DAta"; PTab "DATA_VAR"; PTab "DATA_END"; PRet];
   [PLit "END"; PEmit [CTok T_END]; PRet];
   [PLit "Timer"; PEmit [CTok T_0; CTok T_BYTE_POKE; CByte 19; CTok T_0; CTok
      T_BYTE_POKE; CByte 20]; PRet];
   [PLit "CLR"; PEmit [CTok T_NUM; CWordS "CLEAR_DATA"; CTok (T_Other "TOK_USR_ADDR");
      CTok (T_Other "TOK_USR_CALL")]; PRet];
   [PLit "DLi"; PTab "DLI_COMMAND"; PRet];
   [PLit "GEt"; PTab "IO_CHAN"; PEmit [CTok T_IOCHN]; PTab "GET_EXPR"; PRet];
   [PLit "CLose"; PTab "IO_CHAN"; PEmit [CTok (T_Other "TOK_CLOSE")]; PRet];
   [PLit "Open"; PTab "IO_CHAN"; PEmit [CTok T_PUSH_BYTE; CByte 3]; PTab "XIO_EXPR";
      PRet];
   [PLit "Xio"; PTab "IO_CHAN"; PTab "C_EXPR"; PTab "XIO_EXPR"; PRet];
   [PLit "BPut"; PTab "IO_CHAN"; PTab "C_EXPR"; PTab "C_EXPR"; PEmit [CTok (T_Other
      "TOK_BPUT")]; PRet];
   [PLit "BGet"; PTab "IO_CHAN"; PTab "C_EXPR"; PTab "C_EXPR"; PEmit [CTok (T_Other
      "TOK_BGET")]; PRet];
   [PLit "PMGraphics"; PTab "EXPR"; PEmit [CTok (T_Other "TOK_PMGRAPHICS")]; PRet];
   [PLit "PMhpos"; PTab "EXPR"; PEmit [CTok T_PUSH_NUM; CWord 53248; CTok T_ADD; CTok
      T_SADDR]; PLit ","; PTab "EXPR"; PEmit [CTok T_POKE]; PRet];
   [PLit "Graphics"; PEmit [CTok T_0; CTok (T_Other "TOK_PMGRAPHICS"); CTok T_BYTE; CByte
      6; CTok (T_Other "TOK_CLOSE")]; PTab "EXPR"; PEmit [CTok (T_Other
      "TOK_GRAPHICS")]; PRet];
   [PLit "Color"; PTab "EXPR"; PEmit [CTok T_BYTE_POKE; CByteS "COLOR"]; PRet];
   [PLit "FColor"; PTab "EXPR"; PEmit [CTok T_NUM_POKE; CWord 765]; PRet];
   [PLit "LOCate"; PTab "POSITION"; PEmit [CTok T_BYTE; CByte 6; CTok T_IOCHN]; PTab
      "GET_EXPR"; PRet];
   [PLit "PLot"; PTab "POSITION"; PEmit [CTok T_BYTE; CByte 6; CTok T_IOCHN; CTok
      T_BYTE_PEEK; CByteS "COLOR"; CTok T_PUT]; PTab "IO_CHAN0"; PRet];
   [PLit "DRawto"; PTab "POSITION"; PEmit [CTok T_BYTE; CByte 17; CTok (T_Other
      "TOK_DRAWTO")]; PRet];
   [PLit "FIllto"; PTab "POSITION"; PEmit [CTok T_BYTE; CByte 18; CTok (T_Other
      "TOK_DRAWTO")]; PRet];
   [PLit "SEtcolor"; PTab "EXPR"; PEmit [CTok T_PUSH_NUM; CWord 708; CTok T_ADD; CTok
      T_SADDR]; PTab "EXPR_AB"; PEmit [CTok T_POKE]; PRet];
   [PLit "Sound"; PTab "SOUND"; PRet];
   [PLit "SIo"; PTab "EXPR"; PEmit [CTok T_NUM_POKE; CWord 768]; PLit ","; PTab "EXPR";
      PEmit [CTok T_NUM_POKE; CWord 769]; PLit ","; PTab "EXPR"; PEmit [CTok
      T_NUM_POKE; CWord 770]; PLit ","; PTab "EXPR"; PEmit [CTok T_NUM_POKE; CWord
      771]; PLit ","; PEmit [CTok T_NUM; CWord 772; CTok T_SADDR]; PTab "EXPR"; PEmit
      [CTok T_DPOKE]; PLit ","; PTab "EXPR"; PEmit [CTok T_NUM_POKE; CWord 774]; PLit
      ","; PEmit [CTok T_NUM; CWord 776; CTok T_SADDR]; PTab "EXPR"; PEmit [CTok
      T_DPOKE]; PLit ","; PTab "EXPR"; PEmit [CTok T_NUM_POKE; CWord 778]; PLit ",";
      PTab "EXPR"; PEmit [CTok T_NUM_POKE; CWord 779]; PEmit [CTok T_NUM; CWord 58457;
      CTok (T_Other "TOK_USR_ADDR"); CTok (T_Other "TOK_USR_CALL")]; PRet];
   [PLit "DEG"; PEmit [CTok T_1; CTok T_BYTE_POKE; CByteS "DEGFLAG"]; PRet];
   [PLit "RAd"; PEmit [CTok T_0; CTok T_BYTE_POKE; CByteS "DEGFLAG"]; PRet];
   [PLit "NOpen"; PTab "EXPR"; PEmit [CTok T_NUM_POKE; CWord 769]; PLit ","; PTab "EXPR";
      PEmit [CTok T_NUM_POKE; CWord 778]; PLit ","; PTab "EXPR"; PEmit [CTok
      T_NUM_POKE; CWord 779]; PLit ","; PEmit [CTok T_NUM; CWord 772; CTok T_SADDR];
      PTab "STR_EXPR"; PEmit [CTok T_PUSH_1; CTok T_ADD; CTok T_DPOKE]; PEmit [CTok
      T_BYTE; CByte 113; CTok T_NUM_POKE; CWord 768]; PEmit [CTok T_BYTE; CByte 79;
      CTok T_NUM_POKE; CWord 770]; PEmit [CTok T_BYTE; CByte 128; CTok T_NUM_POKE;
      CWord 771]; PEmit [CTok T_BYTE; CByte 31; CTok T_NUM_POKE; CWord 774]; PEmit
      [CTok T_NUM; CWord 776; CTok T_SADDR; CTok T_NUM; CWord 256; CTok T_DPOKE];
      PEmit [CTok T_NUM; CWord 58457; CTok (T_Other "TOK_USR_ADDR"); CTok (T_Other
      "TOK_USR_CALL")]; PRet];
   [PLit "NClose"; PTab "EXPR"; PEmit [CTok T_NUM_POKE; CWord 769]; PEmit [CTok T_BYTE;
      CByte 113; CTok T_NUM_POKE; CWord 768]; PEmit [CTok T_BYTE; CByte 67; CTok
      T_NUM_POKE; CWord 770]; PEmit [CTok T_BYTE; CByte 0; CTok T_NUM_POKE; CWord
      771]; PEmit [CTok T_BYTE; CByte 31; CTok T_NUM_POKE; CWord 774]; PEmit [CTok
      T_NUM; CWord 776; CTok T_SADDR; CTok T_0; CTok T_DPOKE]; PEmit [CTok T_NUM;
      CWord 58457; CTok (T_Other "TOK_USR_ADDR"); CTok (T_Other "TOK_USR_CALL")];
      PRet];
   [PLit "NStatus"; PTab "EXPR"; PEmit [CTok T_NUM_POKE; CWord 769]; PEmit [CTok T_BYTE;
      CByte 113; CTok T_NUM_POKE; CWord 768]; PEmit [CTok T_BYTE; CByte 83; CTok
      T_NUM_POKE; CWord 770]; PEmit [CTok T_BYTE; CByte 64; CTok T_NUM_POKE; CWord
      771]; PEmit [CTok T_BYTE; CByte 31; CTok T_NUM_POKE; CWord 774]; PEmit [CTok
      T_NUM; CWord 772; CTok T_SADDR; CTok T_NUM; CWord 746; CTok T_DPOKE]; PEmit
      [CTok T_BYTE; CByte 4; CTok T_NUM_POKE; CWord 776]; PEmit [CTok T_BYTE; CByte 0;
      CTok T_NUM_POKE; CWord 777]; PEmit [CTok T_NUM; CWord 58457; CTok (T_Other
      "TOK_USR_ADDR"); CTok (T_Other "TOK_USR_CALL")]; PRet];
   [PLit "NGet"; PTab "EXPR"; PEmit [CTok T_NUM_POKE; CWord 769]; PLit ","; PEmit [CTok
      T_NUM; CWord 772; CTok T_SADDR]; PTab "EXPR"; PEmit [CTok T_DPOKE]; PLit ",";
      PEmit [CTok T_NUM; CWord 776; CTok T_SADDR]; PTab "EXPR"; PEmit [CTok T_DPOKE];
      PEmit [CTok T_NUM; CWord 778; CTok T_SADDR; CTok T_NUM; CWord 776; CTok (T_Other
      "TOK_DPEEK"); CTok T_DPOKE]; PEmit [CTok T_BYTE; CByte 113; CTok T_NUM_POKE;
      CWord 768]; PEmit [CTok T_BYTE; CByte 82; CTok T_NUM_POKE; CWord 770]; PEmit
      [CTok T_BYTE; CByte 64; CTok T_NUM_POKE; CWord 771]; PEmit [CTok T_BYTE; CByte
      31; CTok T_NUM_POKE; CWord 774]; PEmit [CTok T_NUM; CWord 58457; CTok (T_Other
      "TOK_USR_ADDR"); CTok (T_Other "TOK_USR_CALL")]; PRet];
   [PLit "NPut"; PTab "EXPR"; PEmit [CTok T_NUM_POKE; CWord 769]; PLit ","; PEmit [CTok
      T_NUM; CWord 772; CTok T_SADDR]; PTab "EXPR"; PEmit [CTok T_DPOKE]; PLit ",";
      PEmit [CTok T_NUM; CWord 776; CTok T_SADDR]; PTab "EXPR"; PEmit [CTok T_DPOKE];
      PEmit [CTok T_NUM; CWord 778; CTok T_SADDR; CTok T_NUM; CWord 776; CTok (T_Other
      "TOK_DPEEK"); CTok T_DPOKE]; PEmit [CTok T_BYTE; CByte 113; CTok T_NUM_POKE;
      CWord 768]; PEmit [CTok T_BYTE; CByte 87; CTok T_NUM_POKE; CWord 770]; PEmit
      [CTok T_BYTE; CByte 128; CTok T_NUM_POKE; CWord 771]; PEmit [CTok T_BYTE; CByte
      31; CTok T_NUM_POKE; CWord 774]; PEmit [CTok T_NUM; CWord 58457; CTok (T_Other
      "TOK_USR_ADDR"); CTok (T_Other "TOK_USR_CALL")]; PRet]].

(* src/syntax/basic.syn:535-541, src/syntax/float.syn:152-153 *)
Definition f_LINE_ASSIGNMENT : list pline :=
  [[PTab "VAR_WORD_SAVE"; PTab "EQUAL"; PTab "EXPR"; PEmit [CTok T_VAR_STORE]; PExt
      "E_POP_VAR"; PRet];
   [PTab "VAR_WORD_LVALUE_SADDR"; PTab "EQUAL"; PTab "EXPR"; PEmit [CTok T_DPOKE]; PRet];
   [PTab "ARRAY_BYTE_ADDR"; PEmit [CTok T_SADDR]; PTab "EQUAL"; PTab "EXPR"; PEmit [CTok
      T_POKE]; PRet];
   [PTab "VAR_STR_LVALUE_SADDR"; PTab "EQUAL"; PTab "STR_EXPR"; PEmit [CTok (T_Other
      "TOK_COPY_STR")]; PRet];
   [PTab "VAR_STR_LVALUE_SADDR"; PTab "EQUAL"; PLit "+"; PTab "STR_EXPR"; PEmit [CTok
      (T_Other "TOK_CAT_STR")]; PRet];
   [PTab "VAR_FP_LVALUE_SADDR"; PTab "EQUAL"; PTab "FP_EXPR"; PEmit [CTok (T_Other
      "TOK_FP_STORE")]; PRet];
   [PRet]].

(* src/syntax/float.syn:43-44 *)
Definition f_FP_EXPR : list pline :=
  [[PTab "FP_T_EXPR"; PTab "FP_E_EXPR_MORE"; PTab "FP_M_EXPR_MORE"; PTab "FP_EXPR_MORE";
      PRet]].

(* src/syntax/float.syn:46-49 *)
Definition f_FP_EXPR_MORE : list pline :=
  [[PLit "+"; PTab "FP_T_EXPR"; PTab "FP_E_EXPR_MORE"; PTab "FP_M_EXPR_MORE"; PEmit [CTok
      (T_Other "TOK_FP_ADD")]; PTab "FP_EXPR_MORE"; PRet];
   [PLit "-"; PTab "FP_T_EXPR"; PTab "FP_E_EXPR_MORE"; PTab "FP_M_EXPR_MORE"; PEmit [CTok
      (T_Other "TOK_FP_SUB")]; PTab "FP_EXPR_MORE"; PRet];
   [PRet]].

(* src/syntax/float.syn:51-54 *)
Definition f_FP_M_EXPR_MORE : list pline :=
  [[PLit "*"; PTab "FP_T_EXPR"; PTab "FP_E_EXPR_MORE"; PEmit [CTok (T_Other
      "TOK_FP_MUL")]; PTab "FP_M_EXPR_MORE"; PRet];
   [PLit "/"; PTab "FP_T_EXPR"; PTab "FP_E_EXPR_MORE"; PEmit [CTok (T_Other
      "TOK_FP_DIV")]; PTab "FP_M_EXPR_MORE"; PRet];
   [PRet]].

(* src/syntax/float.syn:56-59 *)
Definition f_FP_E_EXPR_MORE : list pline :=
  [[PLit "^"; PTab "T_EXPR"; PEmit [CTok (T_Other "TOK_FP_IPOW")]; PTab "FP_E_EXPR_MORE";
      PRet];
   [PLit "^"; PEmit [CTok (T_Other "TOK_FP_LOG10")]; PTab "FP_T_EXPR"; PEmit [CTok
      (T_Other "TOK_FP_MUL"); CTok (T_Other "TOK_FP_EXP10")]; PTab "FP_E_EXPR_MORE";
      PRet];
   [PRet]].

(* src/syntax/float.syn:61-69 *)
Definition f_FP_T_EXPR : list pline :=
  [[PEmit [CTok (T_Other "TOK_FLOAT")]; PExt "E_NUMBER_FP"; PRet];
   [PLit "-"; PTab "FP_T_EXPR"; PEmit [CTok (T_Other "TOK_FP_NEG")]; PRet];
   [PLit "+"; PTab "FP_T_EXPR"; PRet];
   [PTab "FP_FUNCS"; PRet];
   [PLit "("; PTab "FP_EXPR"; PLit ")"; PRet];
   [PTab "ARRAY_FLOAT_ADDR"; PEmit [CTok (T_Other "TOK_FP_LOAD")]; PRet];
   [PEmit [CTok T_VAR_ADDR; CByteS "VT_FLOAT"]; PExt "E_VAR_SEARCH"; PLit "%"; PEmit
      [CTok (T_Other "TOK_FP_LOAD")]; PRet];
   [PTab "INT_FUNCTIONS"; PEmit [CTok (T_Other "TOK_INT_FP")]; PRet]].

(* src/syntax/float.syn:71-86 *)
Definition f_FP_FUNCS : list pline :=
  [[PLit "Abs"; PTab "FP_T_EXPR"; PEmit [CTok (T_Other "TOK_FP_ABS")]; PRet];
   [PLit "ATn"; PTab "FP_T_EXPR"; PEmit [CTok (T_Other "TOK_FP_ATN")]; PRet];
   [PLit "SGn"; PTab "FP_T_EXPR"; PEmit [CTok (T_Other "TOK_FP_SGN")]; PRet];
   [PLit "EXp10"; PTab "FP_T_EXPR"; PEmit [CTok (T_Other "TOK_FP_EXP10")]; PRet];
   [PLit "EXP"; PTab "FP_T_EXPR"; PEmit [CTok (T_Other "TOK_FP_EXP")]; PRet];
   [PLit "LOg10"; PTab "FP_T_EXPR"; PEmit [CTok (T_Other "TOK_FP_LOG10")]; PRet];
   [PLit "LOG"; PTab "FP_T_EXPR"; PEmit [CTok (T_Other "TOK_FP_LOG")]; PRet];
   [PLit "SQr"; PTab "FP_T_EXPR"; PEmit [CTok (T_Other "TOK_FP_SQRT")]; PRet];
   [PLit "SIn"; PTab "FP_T_EXPR"; PEmit [CTok (T_Other "TOK_FP_SIN")]; PRet];
   [PLit "COs"; PTab "FP_T_EXPR"; PEmit [CTok (T_Other "TOK_FP_COS")]; PRet];
   [PLit "Val"; PTab "STR_EXPR"; PEmit [CTok (T_Other "TOK_FP_VAL")]; PRet];
   [PLit "RNd()"; PEmit [CTok (T_Other "TOK_FP_RND")]; PRet];
   [PLit "%Time"; PEmit [CTok (T_Other "TOK_FP_TIME")]; PRet];
   [PLit "%"; PTab "PAR_EXPR"; PEmit [CTok (T_Other "TOK_FP_LOAD")]; PRet]].

(* src/syntax/float.syn:99-105 *)
Definition f_COMP_FP_RIGHT : list pline :=
  [[PLit "="; PTab "FP_EXPR"; PEmit [CTok (T_Other "TOK_FP_CMP"); CTok T_EQ]; PRet];
   [PLit ">"; PTab "FP_EXPR"; PEmit [CTok (T_Other "TOK_FP_CMP"); CTok T_GT]; PRet];
   [PLit ">="; PTab "FP_EXPR"; PEmit [CTok (T_Other "TOK_FP_CMP"); CTok T_LT; CTok
      T_L_NOT]; PRet];
   [PLit "<>"; PTab "FP_EXPR"; PEmit [CTok (T_Other "TOK_FP_CMP"); CTok T_NEQ]; PRet];
   [PLit "<="; PTab "FP_EXPR"; PEmit [CTok (T_Other "TOK_FP_CMP"); CTok T_GT; CTok
      T_L_NOT]; PRet];
   [PLit "<"; PTab "FP_EXPR"; PEmit [CTok (T_Other "TOK_FP_CMP"); CTok T_LT]; PRet]].

(* src/syntax/float.syn:128-129 *)
Definition f_ARRAY_FLOAT_ADDR : list pline :=
  [[PEmit [CTok T_VAR_LOAD; CByteS "VT_ARRAY_FLOAT"]; PExt "E_VAR_SEARCH"; PLit "%";
      PEmit [CTok T_PUSH]; PTab "PAR_EXPR"; PEmit [CTok (T_Other "TOK_MUL6"); CTok
      T_ADD]; PRet]].

(* src/syntax/float.syn:143-145 *)
Definition f_VAR_FP_LVALUE_SADDR : list pline :=
  [[PEmit [CTok T_VAR_SADDR; CByteS "VT_FLOAT"]; PExt "E_VAR_SEARCH"; PLit "%"; PRet];
   [PTab "ARRAY_FLOAT_ADDR"; PEmit [CTok T_SADDR]; PRet]].

(* All the tables of the floating point version (compiler/atari-fp.tgt). *)
Definition tables_fp : tables :=
  [("INT_EXPR", t_INT_EXPR);
   ("PUSH_T_EXPR", t_PUSH_T_EXPR);
   ("INT_EXPR_MORE", t_INT_EXPR_MORE);
   ("M_EXPR_MORE", t_M_EXPR_MORE);
   ("BIT_EXPR_MORE", t_BIT_EXPR_MORE);
   ("ADR_EXPR", f_ADR_EXPR);
   ("USR_EXPR_MORE", t_USR_EXPR_MORE);
   ("T_EXPR", t_T_EXPR);
   ("INT_FUNCTIONS", f_INT_FUNCTIONS);
   ("RD_PORT", t_RD_PORT);
   ("PAR_EXPR", t_PAR_EXPR);
   ("OR_AND_BOOL", t_OR_AND_BOOL);
   ("TEST_BOOL_EXPR", f_TEST_BOOL_EXPR);
   ("EXPR", f_EXPR);
   ("FORCE_BOOL_EXPR", t_FORCE_BOOL_EXPR);
   ("OR_EXPR_RIGHT", t_OR_EXPR_RIGHT);
   ("OR_EXPR_MORE", t_OR_EXPR_MORE);
   ("AND_EXPR_RIGHT", t_AND_EXPR_RIGHT);
   ("AND_EXPR_MORE", t_AND_EXPR_MORE);
   ("NOT_EXPR", f_NOT_EXPR);
   ("COMP_OR_BOOL", f_COMP_OR_BOOL);
   ("COMP_EXPR_RIGHT", t_COMP_EXPR_RIGHT);
   ("PCMP_STR_EXPR", t_PCMP_STR_EXPR);
   ("COMP_STR_RIGHT", t_COMP_STR_RIGHT);
   ("COMP_EXPR_MORE", t_COMP_EXPR_MORE);
   ("STR_EXPR", t_STR_EXPR);
   ("OPT_STR_INDEX", t_OPT_STR_INDEX);
   ("STRING_FUNCTIONS", f_STRING_FUNCTIONS);
   ("PRINT_SEP", t_PRINT_SEP);
   ("PRINT_ONE", f_PRINT_ONE);
   ("PRINT_NO_EOL", t_PRINT_NO_EOL);
   ("PRINT_EOL", t_PRINT_EOL);
   ("THEN_OR_MULTILINE", t_THEN_OR_MULTILINE);
   ("VAR_CREATE_TYPE", f_VAR_CREATE_TYPE);
   ("VAR_WORD_LVALUE_SADDR", t_VAR_WORD_LVALUE_SADDR);
   ("VAR_STR_LVALUE_SADDR", t_VAR_STR_LVALUE_SADDR);
   ("VAR_WORD_SAVE", t_VAR_WORD_SAVE);
   ("EQUAL", t_EQUAL);
   ("STEP_OPTIONAL", t_STEP_OPTIONAL);
   ("NEXT_VARNAME", t_NEXT_VARNAME);
   ("POSITION", t_POSITION);
   ("ARRAY_WORD_ADDR", t_ARRAY_WORD_ADDR);
   ("ARRAY_STRING_ADDR", t_ARRAY_STRING_ADDR);
   ("ARRAY_BYTE_ADDR", t_ARRAY_BYTE_ADDR);
   ("DIM_MORE", t_DIM_MORE);
   ("INPUT_STR", t_INPUT_STR);
   ("INPUT_VAR_LIST", t_INPUT_VAR_LIST);
   ("INPUT_VAR_MORE", t_INPUT_VAR_MORE);
   ("INPUT_VAR", f_INPUT_VAR);
   ("TYPE_WORD", t_TYPE_WORD);
   ("TYPE_BYTE", t_TYPE_BYTE);
   ("DIM_VAR_TYPE", f_DIM_VAR_TYPE);
   ("DIM_VAR", f_DIM_VAR);
   ("IO_CHAN_OPT", t_IO_CHAN_OPT);
   ("IO_CHAN_OPT_NOCOMMA", t_IO_CHAN_OPT_NOCOMMA);
   ("IO_CHAN0", t_IO_CHAN0);
   ("GETK_EXPR", t_GETK_EXPR);
   ("C_EXPR", t_C_EXPR);
   ("EXPR_AB", t_EXPR_AB);
   ("DATA_WORDS", t_DATA_WORDS);
   ("DATA_BYTE", t_DATA_BYTE);
   ("DATA_BYTES", t_DATA_BYTES);
   ("DATA_EXT_TYPE", t_DATA_EXT_TYPE);
   ("DATA_TYPE", t_DATA_TYPE);
   ("DATA_END", t_DATA_END);
   ("DATA_VAR", t_DATA_VAR);
   ("PAUSE_OPT", t_PAUSE_OPT);
   ("OPT_EXEC_PARAM", t_OPT_EXEC_PARAM);
   ("EXEC_PARAM_MORE", t_EXEC_PARAM_MORE);
   ("EXEC_CALL", t_EXEC_CALL);
   ("OPT_PROC_VAR", t_OPT_PROC_VAR);
   ("STATEMENT", f_STATEMENT);
   ("LINE_ASSIGNMENT", f_LINE_ASSIGNMENT);
   ("PARSE_START", t_PARSE_START);
   ("DLI_COMMAND", t_DLI_COMMAND);
   ("DLI_MORE", t_DLI_MORE);
   ("DLI_LDA", t_DLI_LDA);
   ("DLI_STA", t_DLI_STA);
   ("IO_CHAN", t_IO_CHAN);
   ("GET_EXPR", t_GET_EXPR);
   ("GET_EXPR_MORE", t_GET_EXPR_MORE);
   ("XIO_EXPR", t_XIO_EXPR);
   ("SOUND", t_SOUND);
   ("SOUND_S1", t_SOUND_S1);
   ("DATA_FILE", t_DATA_FILE);
   ("FP_EXPR", f_FP_EXPR);
   ("FP_EXPR_MORE", f_FP_EXPR_MORE);
   ("FP_M_EXPR_MORE", f_FP_M_EXPR_MORE);
   ("FP_E_EXPR_MORE", f_FP_E_EXPR_MORE);
   ("FP_T_EXPR", f_FP_T_EXPR);
   ("FP_FUNCS", f_FP_FUNCS);
   ("COMP_FP_RIGHT", f_COMP_FP_RIGHT);
   ("ARRAY_FLOAT_ADDR", f_ARRAY_FLOAT_ADDR);
   ("VAR_FP_LVALUE_SADDR", f_VAR_FP_LVALUE_SADDR)].
