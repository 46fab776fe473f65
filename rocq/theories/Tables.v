(** Lookup tables, generated by tools/gen_tables.py from the Rust source. *)
From Coq Require Import List.
Import ListNotations.

(** Names of the byte handlers, /repo/ratel/src/lexer/mod.rs:82-599 and labels.rs:36-246. *)
Inductive byte_handler : Set := H_EOF | H_EXL | H_QOT | H_ERR | H_IDT | H_PRC | H_AMP | H_PNO | H_PNC | H_ATR | H_PLS | H_COM | H_MIN | H_PRD | H_SLH | H_ZER | H_DIG | H_COL | H_SEM | H_LSS | H_EQL | H_MOR | H_QST | H_BTO | H_BTC | H_CRT | H_TPL | H_L_B | H_L_C | H_L_D | H_L_E | H_L_F | H_L_I | H_L_L | H_L_N | H_L_P | H_L_R | H_L_S | H_L_T | H_L_U | H_L_V | H_L_W | H_L_Y | H_BEO | H_PIP | H_BEC | H_TLD | H_UNI.

(** [BYTE_HANDLERS], /repo/ratel/src/lexer/mod.rs:59-78 ([None] for [___]). *)
Definition BYTE_HANDLERS : list (option byte_handler) :=
  [Some H_EOF; None; None; None; None; None; None; None; None; None; None; None;
   None; None; None; None; None; None; None; None; None; None; None; None;
   None; None; None; None; None; None; None; None; None; Some H_EXL; Some H_QOT; Some H_ERR;
   Some H_IDT; Some H_PRC; Some H_AMP; Some H_QOT; Some H_PNO; Some H_PNC; Some H_ATR; Some H_PLS; Some H_COM; Some H_MIN; Some H_PRD; Some H_SLH;
   Some H_ZER; Some H_DIG; Some H_DIG; Some H_DIG; Some H_DIG; Some H_DIG; Some H_DIG; Some H_DIG; Some H_DIG; Some H_DIG; Some H_COL; Some H_SEM;
   Some H_LSS; Some H_EQL; Some H_MOR; Some H_QST; Some H_ERR; Some H_IDT; Some H_IDT; Some H_IDT; Some H_IDT; Some H_IDT; Some H_IDT; Some H_IDT;
   Some H_IDT; Some H_IDT; Some H_IDT; Some H_IDT; Some H_IDT; Some H_IDT; Some H_IDT; Some H_IDT; Some H_IDT; Some H_IDT; Some H_IDT; Some H_IDT;
   Some H_IDT; Some H_IDT; Some H_IDT; Some H_IDT; Some H_IDT; Some H_IDT; Some H_IDT; Some H_BTO; Some H_IDT; Some H_BTC; Some H_CRT; Some H_IDT;
   Some H_TPL; Some H_IDT; Some H_L_B; Some H_L_C; Some H_L_D; Some H_L_E; Some H_L_F; Some H_IDT; Some H_IDT; Some H_L_I; Some H_IDT; Some H_IDT;
   Some H_L_L; Some H_IDT; Some H_L_N; Some H_IDT; Some H_L_P; Some H_IDT; Some H_L_R; Some H_L_S; Some H_L_T; Some H_L_U; Some H_L_V; Some H_L_W;
   Some H_IDT; Some H_L_Y; Some H_IDT; Some H_BEO; Some H_PIP; Some H_BEC; Some H_TLD; Some H_ERR; Some H_UNI; Some H_UNI; Some H_UNI; Some H_UNI;
   Some H_UNI; Some H_UNI; Some H_UNI; Some H_UNI; Some H_UNI; Some H_UNI; Some H_UNI; Some H_UNI; Some H_UNI; Some H_UNI; Some H_UNI; Some H_UNI;
   Some H_UNI; Some H_UNI; Some H_UNI; Some H_UNI; Some H_UNI; Some H_UNI; Some H_UNI; Some H_UNI; Some H_UNI; Some H_UNI; Some H_UNI; Some H_UNI;
   Some H_UNI; Some H_UNI; Some H_UNI; Some H_UNI; Some H_UNI; Some H_UNI; Some H_UNI; Some H_UNI; Some H_UNI; Some H_UNI; Some H_UNI; Some H_UNI;
   Some H_UNI; Some H_UNI; Some H_UNI; Some H_UNI; Some H_UNI; Some H_UNI; Some H_UNI; Some H_UNI; Some H_UNI; Some H_UNI; Some H_UNI; Some H_UNI;
   Some H_UNI; Some H_UNI; Some H_UNI; Some H_UNI; Some H_UNI; Some H_UNI; Some H_UNI; Some H_UNI; Some H_UNI; Some H_UNI; Some H_UNI; Some H_UNI;
   Some H_UNI; Some H_UNI; Some H_UNI; Some H_UNI; Some H_UNI; Some H_UNI; Some H_UNI; Some H_UNI; Some H_UNI; Some H_UNI; Some H_UNI; Some H_UNI;
   Some H_UNI; Some H_UNI; Some H_UNI; Some H_UNI; Some H_UNI; Some H_UNI; Some H_UNI; Some H_UNI; Some H_UNI; Some H_UNI; Some H_UNI; Some H_UNI;
   Some H_UNI; Some H_UNI; Some H_UNI; Some H_UNI; Some H_UNI; Some H_UNI; Some H_UNI; Some H_UNI; Some H_UNI; Some H_UNI; Some H_UNI; Some H_UNI;
   Some H_UNI; Some H_UNI; Some H_UNI; Some H_UNI; Some H_UNI; Some H_UNI; Some H_UNI; Some H_UNI; Some H_UNI; Some H_UNI; Some H_UNI; Some H_UNI;
   Some H_UNI; Some H_UNI; Some H_UNI; Some H_UNI; Some H_UNI; Some H_UNI; Some H_UNI; Some H_UNI; Some H_UNI; Some H_UNI; Some H_UNI; Some H_UNI;
   Some H_UNI; Some H_UNI; Some H_UNI; Some H_UNI].

(** [TABLE] of [legal_in_label], /repo/ratel/src/lexer/util.rs:12-30. *)
Definition LABEL_TABLE : list bool :=
  [false; false; false; false; false; false; false; false; false; false; false; false;
   false; false; false; false; false; false; false; false; false; false; false; false;
   false; false; false; false; false; false; false; false; false; false; false; false;
   true; false; false; false; false; false; false; false; false; false; false; false;
   true; true; true; true; true; true; true; true; true; true; false; false;
   false; false; false; false; false; true; true; true; true; true; true; true;
   true; true; true; true; true; true; true; true; true; true; true; true;
   true; true; true; true; true; true; true; false; true; false; false; true;
   false; true; true; true; true; true; true; true; true; true; true; true;
   true; true; true; true; true; true; true; true; true; true; true; true;
   true; true; true; false; false; false; false; false; true; true; true; true;
   true; true; true; true; true; true; true; true; true; true; true; true;
   true; true; true; true; true; true; true; true; true; true; true; true;
   true; true; true; true; true; true; true; true; true; true; true; true;
   true; true; true; true; true; true; true; true; true; true; true; true;
   true; true; true; true; true; true; true; true; true; true; true; true;
   true; true; true; true; true; true; true; true; true; true; true; true;
   true; true; true; true; true; true; true; true; true; true; true; true;
   true; true; true; true; true; true; true; true; true; true; true; true;
   true; true; true; true; true; true; true; true; true; true; true; true;
   true; true; true; true; true; true; true; true; true; true; true; true;
   true; true; true; true].

(** [TABLE] of [read_accessor], /repo/ratel/src/lexer/mod.rs:864-875. *)
Definition ACCESSOR_TABLE : list bool :=
  [false; false; false; false; false; false; false; false; false; false; false; false;
   false; false; false; false; false; false; false; false; false; false; false; false;
   false; false; false; false; false; false; false; false; false; false; false; false;
   true; false; false; false; false; false; false; false; false; false; false; false;
   false; false; false; false; false; false; false; false; false; false; false; false;
   false; false; false; false; false; true; true; true; true; true; true; true;
   true; true; true; true; true; true; true; true; true; true; true; true;
   true; true; true; true; true; true; true; false; true; false; false; true;
   false; true; true; true; true; true; true; true; true; true; true; true;
   true; true; true; true; true; true; true; true; true; true; true; true;
   true; true; true; false; false; false; false; false].

(** The binding-power types, /repo/ratel/src/parser/nested.rs:41-225. *)
Inductive bp : Set := BP_ANY | BP_B0 | BP_B1 | BP_B5 | BP_B6 | BP_B7 | BP_B8 | BP_B9 | BP_B10 | BP_B11 | BP_B12 | BP_B13 | BP_B14 | BP_B15.

(** Names of the nested handlers, nested.rs:229-429. *)
Inductive nested_handler : Set := N_SEQ | N_CALL | N_CMEM | N_ARRW | N_INC | N_DEC | N_MUL | N_DIV | N_REM | N_EXPN | N_ADD | N_SUB | N_BSL | N_BSR | N_UBSR | N_LESS | N_LSEQ | N_GRTR | N_GREQ | N_INOF | N_IN | N_STEQ | N_SIEQ | N_EQ | N_INEQ | N_BWAN | N_BWXO | N_BWOR | N_AND | N_OR | N_COND | N_ASGN | N_ADDA | N_SUBA | N_EXPA | N_MULA | N_DIVA | N_REMA | N_BSLA | N_BSRA | N_UBSA | N_BWAA | N_XORA | N_BORA | N_ACCS | N_TPLE | N_TPLS.

(** [ANY::LUT], nested.rs:42. *)
Definition LUT_ANY : list (option nested_handler) :=
  [None; None; None; Some N_SEQ; Some N_CALL; None; Some N_CMEM; None; None; None; Some N_ARRW; None;
   Some N_INC; Some N_DEC; None; None; None; None; None; Some N_MUL; Some N_DIV; Some N_REM; Some N_EXPN; Some N_ADD;
   Some N_SUB; Some N_BSL; Some N_BSR; Some N_UBSR; Some N_LESS; Some N_LSEQ; Some N_GRTR; Some N_GREQ; Some N_INOF; Some N_IN; Some N_STEQ; Some N_SIEQ;
   Some N_EQ; Some N_INEQ; Some N_BWAN; Some N_BWXO; Some N_BWOR; Some N_AND; Some N_OR; Some N_COND; Some N_ASGN; Some N_ADDA; Some N_SUBA; Some N_EXPA;
   Some N_MULA; Some N_DIVA; Some N_REMA; Some N_BSLA; Some N_BSRA; Some N_UBSA; Some N_BWAA; Some N_XORA; Some N_BORA; None; None; None;
   None; None; None; None; None; None; None; None; None; None; None; None;
   None; None; None; None; None; None; None; None; None; None; None; None;
   None; None; None; None; None; None; None; None; None; None; None; None;
   None; None; None; None; None; None; None; Some N_ACCS; Some N_TPLE; Some N_TPLS; None; None].

(** [B0::LUT], nested.rs:71. *)
Definition LUT_B0 : list (option nested_handler) :=
  [None; None; None; None; Some N_CALL; None; Some N_CMEM; None; None; None; Some N_ARRW; None;
   Some N_INC; Some N_DEC; None; None; None; None; None; Some N_MUL; Some N_DIV; Some N_REM; Some N_EXPN; Some N_ADD;
   Some N_SUB; Some N_BSL; Some N_BSR; Some N_UBSR; Some N_LESS; Some N_LSEQ; Some N_GRTR; Some N_GREQ; Some N_INOF; Some N_IN; Some N_STEQ; Some N_SIEQ;
   Some N_EQ; Some N_INEQ; Some N_BWAN; Some N_BWXO; Some N_BWOR; Some N_AND; Some N_OR; Some N_COND; Some N_ASGN; Some N_ADDA; Some N_SUBA; Some N_EXPA;
   Some N_MULA; Some N_DIVA; Some N_REMA; Some N_BSLA; Some N_BSRA; Some N_UBSA; Some N_BWAA; Some N_XORA; Some N_BORA; None; None; None;
   None; None; None; None; None; None; None; None; None; None; None; None;
   None; None; None; None; None; None; None; None; None; None; None; None;
   None; None; None; None; None; None; None; None; None; None; None; None;
   None; None; None; None; None; None; None; Some N_ACCS; Some N_TPLE; Some N_TPLS; None; None].

(** [B1::LUT], nested.rs:83. *)
Definition LUT_B1 : list (option nested_handler) :=
  [None; None; None; None; Some N_CALL; None; Some N_CMEM; None; None; None; Some N_ARRW; None;
   Some N_INC; Some N_DEC; None; None; None; None; None; Some N_MUL; Some N_DIV; Some N_REM; Some N_EXPN; Some N_ADD;
   Some N_SUB; Some N_BSL; Some N_BSR; Some N_UBSR; Some N_LESS; Some N_LSEQ; Some N_GRTR; Some N_GREQ; Some N_INOF; Some N_IN; Some N_STEQ; Some N_SIEQ;
   Some N_EQ; Some N_INEQ; Some N_BWAN; Some N_BWXO; Some N_BWOR; Some N_AND; Some N_OR; Some N_COND; Some N_ASGN; Some N_ADDA; Some N_SUBA; Some N_EXPA;
   Some N_MULA; Some N_DIVA; Some N_REMA; Some N_BSLA; Some N_BSRA; Some N_UBSA; Some N_BWAA; Some N_XORA; Some N_BORA; None; None; None;
   None; None; None; None; None; None; None; None; None; None; None; None;
   None; None; None; None; None; None; None; None; None; None; None; None;
   None; None; None; None; None; None; None; None; None; None; None; None;
   None; None; None; None; None; None; None; Some N_ACCS; Some N_TPLE; Some N_TPLS; None; None].

(** [B5::LUT], nested.rs:95. *)
Definition LUT_B5 : list (option nested_handler) :=
  [None; None; None; None; Some N_CALL; None; Some N_CMEM; None; None; None; Some N_ARRW; None;
   Some N_INC; Some N_DEC; None; None; None; None; None; Some N_MUL; Some N_DIV; Some N_REM; Some N_EXPN; Some N_ADD;
   Some N_SUB; Some N_BSL; Some N_BSR; Some N_UBSR; Some N_LESS; Some N_LSEQ; Some N_GRTR; Some N_GREQ; Some N_INOF; Some N_IN; Some N_STEQ; Some N_SIEQ;
   Some N_EQ; Some N_INEQ; Some N_BWAN; Some N_BWXO; Some N_BWOR; Some N_AND; None; None; None; None; None; None;
   None; None; None; None; None; None; None; None; None; None; None; None;
   None; None; None; None; None; None; None; None; None; None; None; None;
   None; None; None; None; None; None; None; None; None; None; None; None;
   None; None; None; None; None; None; None; None; None; None; None; None;
   None; None; None; None; None; None; None; Some N_ACCS; Some N_TPLE; Some N_TPLS; None; None].

(** [B6::LUT], nested.rs:107. *)
Definition LUT_B6 : list (option nested_handler) :=
  [None; None; None; None; Some N_CALL; None; Some N_CMEM; None; None; None; Some N_ARRW; None;
   Some N_INC; Some N_DEC; None; None; None; None; None; Some N_MUL; Some N_DIV; Some N_REM; Some N_EXPN; Some N_ADD;
   Some N_SUB; Some N_BSL; Some N_BSR; Some N_UBSR; Some N_LESS; Some N_LSEQ; Some N_GRTR; Some N_GREQ; Some N_INOF; Some N_IN; Some N_STEQ; Some N_SIEQ;
   Some N_EQ; Some N_INEQ; Some N_BWAN; Some N_BWXO; Some N_BWOR; None; None; None; None; None; None; None;
   None; None; None; None; None; None; None; None; None; None; None; None;
   None; None; None; None; None; None; None; None; None; None; None; None;
   None; None; None; None; None; None; None; None; None; None; None; None;
   None; None; None; None; None; None; None; None; None; None; None; None;
   None; None; None; None; None; None; None; Some N_ACCS; Some N_TPLE; Some N_TPLS; None; None].

(** [B7::LUT], nested.rs:119. *)
Definition LUT_B7 : list (option nested_handler) :=
  [None; None; None; None; Some N_CALL; None; Some N_CMEM; None; None; None; Some N_ARRW; None;
   Some N_INC; Some N_DEC; None; None; None; None; None; Some N_MUL; Some N_DIV; Some N_REM; Some N_EXPN; Some N_ADD;
   Some N_SUB; Some N_BSL; Some N_BSR; Some N_UBSR; Some N_LESS; Some N_LSEQ; Some N_GRTR; Some N_GREQ; Some N_INOF; Some N_IN; Some N_STEQ; Some N_SIEQ;
   Some N_EQ; Some N_INEQ; Some N_BWAN; Some N_BWXO; None; None; None; None; None; None; None; None;
   None; None; None; None; None; None; None; None; None; None; None; None;
   None; None; None; None; None; None; None; None; None; None; None; None;
   None; None; None; None; None; None; None; None; None; None; None; None;
   None; None; None; None; None; None; None; None; None; None; None; None;
   None; None; None; None; None; None; None; Some N_ACCS; Some N_TPLE; Some N_TPLS; None; None].

(** [B8::LUT], nested.rs:131. *)
Definition LUT_B8 : list (option nested_handler) :=
  [None; None; None; None; Some N_CALL; None; Some N_CMEM; None; None; None; Some N_ARRW; None;
   Some N_INC; Some N_DEC; None; None; None; None; None; Some N_MUL; Some N_DIV; Some N_REM; Some N_EXPN; Some N_ADD;
   Some N_SUB; Some N_BSL; Some N_BSR; Some N_UBSR; Some N_LESS; Some N_LSEQ; Some N_GRTR; Some N_GREQ; Some N_INOF; Some N_IN; Some N_STEQ; Some N_SIEQ;
   Some N_EQ; Some N_INEQ; Some N_BWAN; None; None; None; None; None; None; None; None; None;
   None; None; None; None; None; None; None; None; None; None; None; None;
   None; None; None; None; None; None; None; None; None; None; None; None;
   None; None; None; None; None; None; None; None; None; None; None; None;
   None; None; None; None; None; None; None; None; None; None; None; None;
   None; None; None; None; None; None; None; Some N_ACCS; Some N_TPLE; Some N_TPLS; None; None].

(** [B9::LUT], nested.rs:143. *)
Definition LUT_B9 : list (option nested_handler) :=
  [None; None; None; None; Some N_CALL; None; Some N_CMEM; None; None; None; Some N_ARRW; None;
   Some N_INC; Some N_DEC; None; None; None; None; None; Some N_MUL; Some N_DIV; Some N_REM; Some N_EXPN; Some N_ADD;
   Some N_SUB; Some N_BSL; Some N_BSR; Some N_UBSR; Some N_LESS; Some N_LSEQ; Some N_GRTR; Some N_GREQ; Some N_INOF; Some N_IN; Some N_STEQ; Some N_SIEQ;
   Some N_EQ; Some N_INEQ; None; None; None; None; None; None; None; None; None; None;
   None; None; None; None; None; None; None; None; None; None; None; None;
   None; None; None; None; None; None; None; None; None; None; None; None;
   None; None; None; None; None; None; None; None; None; None; None; None;
   None; None; None; None; None; None; None; None; None; None; None; None;
   None; None; None; None; None; None; None; Some N_ACCS; Some N_TPLE; Some N_TPLS; None; None].

(** [B10::LUT], nested.rs:155. *)
Definition LUT_B10 : list (option nested_handler) :=
  [None; None; None; None; Some N_CALL; None; Some N_CMEM; None; None; None; Some N_ARRW; None;
   Some N_INC; Some N_DEC; None; None; None; None; None; Some N_MUL; Some N_DIV; Some N_REM; Some N_EXPN; Some N_ADD;
   Some N_SUB; Some N_BSL; Some N_BSR; Some N_UBSR; Some N_LESS; Some N_LSEQ; Some N_GRTR; Some N_GREQ; Some N_INOF; Some N_IN; None; None;
   None; None; None; None; None; None; None; None; None; None; None; None;
   None; None; None; None; None; None; None; None; None; None; None; None;
   None; None; None; None; None; None; None; None; None; None; None; None;
   None; None; None; None; None; None; None; None; None; None; None; None;
   None; None; None; None; None; None; None; None; None; None; None; None;
   None; None; None; None; None; None; None; Some N_ACCS; Some N_TPLE; Some N_TPLS; None; None].

(** [B11::LUT], nested.rs:167. *)
Definition LUT_B11 : list (option nested_handler) :=
  [None; None; None; None; Some N_CALL; None; Some N_CMEM; None; None; None; Some N_ARRW; None;
   Some N_INC; Some N_DEC; None; None; None; None; None; Some N_MUL; Some N_DIV; Some N_REM; Some N_EXPN; Some N_ADD;
   Some N_SUB; Some N_BSL; Some N_BSR; Some N_UBSR; None; None; None; None; None; None; None; None;
   None; None; None; None; None; None; None; None; None; None; None; None;
   None; None; None; None; None; None; None; None; None; None; None; None;
   None; None; None; None; None; None; None; None; None; None; None; None;
   None; None; None; None; None; None; None; None; None; None; None; None;
   None; None; None; None; None; None; None; None; None; None; None; None;
   None; None; None; None; None; None; None; Some N_ACCS; Some N_TPLE; Some N_TPLS; None; None].

(** [B12::LUT], nested.rs:179. *)
Definition LUT_B12 : list (option nested_handler) :=
  [None; None; None; None; Some N_CALL; None; Some N_CMEM; None; None; None; Some N_ARRW; None;
   Some N_INC; Some N_DEC; None; None; None; None; None; Some N_MUL; Some N_DIV; Some N_REM; Some N_EXPN; Some N_ADD;
   Some N_SUB; None; None; None; None; None; None; None; None; None; None; None;
   None; None; None; None; None; None; None; None; None; None; None; None;
   None; None; None; None; None; None; None; None; None; None; None; None;
   None; None; None; None; None; None; None; None; None; None; None; None;
   None; None; None; None; None; None; None; None; None; None; None; None;
   None; None; None; None; None; None; None; None; None; None; None; None;
   None; None; None; None; None; None; None; Some N_ACCS; Some N_TPLE; Some N_TPLS; None; None].

(** [B13::LUT], nested.rs:191. *)
Definition LUT_B13 : list (option nested_handler) :=
  [None; None; None; None; Some N_CALL; None; Some N_CMEM; None; None; None; Some N_ARRW; None;
   Some N_INC; Some N_DEC; None; None; None; None; None; Some N_MUL; Some N_DIV; Some N_REM; Some N_EXPN; None;
   None; None; None; None; None; None; None; None; None; None; None; None;
   None; None; None; None; None; None; None; None; None; None; None; None;
   None; None; None; None; None; None; None; None; None; None; None; None;
   None; None; None; None; None; None; None; None; None; None; None; None;
   None; None; None; None; None; None; None; None; None; None; None; None;
   None; None; None; None; None; None; None; None; None; None; None; None;
   None; None; None; None; None; None; None; Some N_ACCS; Some N_TPLE; Some N_TPLS; None; None].

(** [B14::LUT], nested.rs:203. *)
Definition LUT_B14 : list (option nested_handler) :=
  [None; None; None; None; Some N_CALL; None; Some N_CMEM; None; None; None; Some N_ARRW; None;
   Some N_INC; Some N_DEC; None; None; None; None; None; None; None; None; Some N_EXPN; None;
   None; None; None; None; None; None; None; None; None; None; None; None;
   None; None; None; None; None; None; None; None; None; None; None; None;
   None; None; None; None; None; None; None; None; None; None; None; None;
   None; None; None; None; None; None; None; None; None; None; None; None;
   None; None; None; None; None; None; None; None; None; None; None; None;
   None; None; None; None; None; None; None; None; None; None; None; None;
   None; None; None; None; None; None; None; Some N_ACCS; Some N_TPLE; Some N_TPLS; None; None].

(** [B15::LUT], nested.rs:215. *)
Definition LUT_B15 : list (option nested_handler) :=
  [None; None; None; None; Some N_CALL; None; Some N_CMEM; None; None; None; Some N_ARRW; None;
   Some N_INC; Some N_DEC; None; None; None; None; None; None; None; None; None; None;
   None; None; None; None; None; None; None; None; None; None; None; None;
   None; None; None; None; None; None; None; None; None; None; None; None;
   None; None; None; None; None; None; None; None; None; None; None; None;
   None; None; None; None; None; None; None; None; None; None; None; None;
   None; None; None; None; None; None; None; None; None; None; None; None;
   None; None; None; None; None; None; None; None; None; None; None; None;
   None; None; None; None; None; None; None; Some N_ACCS; Some N_TPLE; Some N_TPLS; None; None].

Definition LUT (b : bp) : list (option nested_handler) :=
  match b with
  | BP_ANY => LUT_ANY
  | BP_B0 => LUT_B0
  | BP_B1 => LUT_B1
  | BP_B5 => LUT_B5
  | BP_B6 => LUT_B6
  | BP_B7 => LUT_B7
  | BP_B8 => LUT_B8
  | BP_B9 => LUT_B9
  | BP_B10 => LUT_B10
  | BP_B11 => LUT_B11
  | BP_B12 => LUT_B12
  | BP_B13 => LUT_B13
  | BP_B14 => LUT_B14
  | BP_B15 => LUT_B15
  end.

(** Names of the expression handlers, /repo/ratel/src/parser/expression.rs:98-220 ([X_____] is [____]). *)
Inductive expr_handler : Set := X_____ | X_PRN | X_ARR | X_OBJ | X_NEW | X_OP | X_REG | X_CLAS | X_FUNC | X_THIS | X_TRUE | X_FALS | X_NULL | X_UNDE | X_STR | X_NUM | X_BIN | X_IDEN | X_TPLE | X_TPLS | X_VOID | X_SPRD.

(** [DEF_CONTEXT], expression.rs:13. *)
Definition DEF_CONTEXT : list expr_handler :=
  [X_____; X_____; X_____; X_____; X_PRN; X_____; X_ARR; X_____; X_OBJ; X_____; X_____; X_NEW;
   X_OP; X_OP; X_OP; X_OP; X_OP; X_OP; X_OP; X_____; X_REG; X_____; X_____; X_OP;
   X_OP; X_____; X_____; X_____; X_____; X_____; X_____; X_____; X_____; X_____; X_____; X_____;
   X_____; X_____; X_____; X_____; X_____; X_____; X_____; X_____; X_____; X_____; X_____; X_____;
   X_____; X_____; X_____; X_____; X_____; X_____; X_____; X_____; X_____; X_____; X_____; X_____;
   X_____; X_____; X_____; X_____; X_____; X_____; X_____; X_CLAS; X_____; X_____; X_____; X_____;
   X_____; X_____; X_____; X_____; X_____; X_____; X_____; X_FUNC; X_THIS; X_____; X_____; X_____;
   X_____; X_____; X_____; X_TRUE; X_FALS; X_NULL; X_UNDE; X_STR; X_NUM; X_BIN; X_____; X_____;
   X_____; X_____; X_____; X_____; X_____; X_____; X_IDEN; X_____; X_TPLE; X_TPLS; X_____; X_____].

(** [ARRAY_CONTEXT], expression.rs:43. *)
Definition ARRAY_CONTEXT : list expr_handler :=
  [X_____; X_____; X_____; X_VOID; X_PRN; X_____; X_ARR; X_VOID; X_OBJ; X_____; X_____; X_NEW;
   X_OP; X_OP; X_OP; X_OP; X_OP; X_OP; X_OP; X_____; X_REG; X_____; X_____; X_OP;
   X_OP; X_____; X_____; X_____; X_____; X_____; X_____; X_____; X_____; X_____; X_____; X_____;
   X_____; X_____; X_____; X_____; X_____; X_____; X_____; X_____; X_____; X_____; X_____; X_____;
   X_____; X_____; X_____; X_____; X_____; X_____; X_____; X_____; X_____; X_SPRD; X_____; X_____;
   X_____; X_____; X_____; X_____; X_____; X_____; X_____; X_CLAS; X_____; X_____; X_____; X_____;
   X_____; X_____; X_____; X_____; X_____; X_____; X_____; X_FUNC; X_THIS; X_____; X_____; X_____;
   X_____; X_____; X_____; X_TRUE; X_FALS; X_NULL; X_UNDE; X_STR; X_NUM; X_BIN; X_____; X_____;
   X_____; X_____; X_____; X_____; X_____; X_____; X_IDEN; X_____; X_TPLE; X_TPLS; X_____; X_____].

(** [CALL_CONTEXT], expression.rs:56. *)
Definition CALL_CONTEXT : list expr_handler :=
  [X_____; X_____; X_____; X_____; X_PRN; X_____; X_ARR; X_____; X_OBJ; X_____; X_____; X_NEW;
   X_OP; X_OP; X_OP; X_OP; X_OP; X_OP; X_OP; X_____; X_REG; X_____; X_____; X_OP;
   X_OP; X_____; X_____; X_____; X_____; X_____; X_____; X_____; X_____; X_____; X_____; X_____;
   X_____; X_____; X_____; X_____; X_____; X_____; X_____; X_____; X_____; X_____; X_____; X_____;
   X_____; X_____; X_____; X_____; X_____; X_____; X_____; X_____; X_____; X_SPRD; X_____; X_____;
   X_____; X_____; X_____; X_____; X_____; X_____; X_____; X_CLAS; X_____; X_____; X_____; X_____;
   X_____; X_____; X_____; X_____; X_____; X_____; X_____; X_FUNC; X_THIS; X_____; X_____; X_____;
   X_____; X_____; X_____; X_TRUE; X_FALS; X_NULL; X_UNDE; X_STR; X_NUM; X_BIN; X_____; X_____;
   X_____; X_____; X_____; X_____; X_____; X_____; X_IDEN; X_____; X_TPLE; X_TPLS; X_____; X_____].

(** Names of the statement handlers, /repo/ratel/src/parser/statement.rs:64-105. *)
Inductive stmt_handler : Set := S_____ | S_EMPT | S_PRN | S_ARR | S_BLCK | S_NEW | S_OP | S_REG | S_VAR | S_LET | S_CONS | S_BRK | S_DO | S_CLAS | S_RET | S_WHL | S_CONT | S_FOR | S_SWCH | S_DBGGR | S_FUNC | S_THIS | S_IF | S_THRW | S_IMPT | S_TRY | S_TRUE | S_FALS | S_NULL | S_UNDE | S_STR | S_NUM | S_BIN | S_LABL | S_TPLE | S_TPLS.

(** [STMT_HANDLERS], statement.rs:18-45. *)
Definition STMT_HANDLERS : list stmt_handler :=
  [S_____; S_EMPT; S_____; S_____; S_PRN; S_____; S_ARR; S_____; S_BLCK; S_____; S_____; S_NEW;
   S_OP; S_OP; S_OP; S_OP; S_OP; S_OP; S_OP; S_____; S_REG; S_____; S_____; S_OP;
   S_OP; S_____; S_____; S_____; S_____; S_____; S_____; S_____; S_____; S_____; S_____; S_____;
   S_____; S_____; S_____; S_____; S_____; S_____; S_____; S_____; S_____; S_____; S_____; S_____;
   S_____; S_____; S_____; S_____; S_____; S_____; S_____; S_____; S_____; S_____; S_VAR; S_LET;
   S_CONS; S_BRK; S_DO; S_____; S_____; S_____; S_____; S_CLAS; S_____; S_RET; S_WHL; S_____;
   S_____; S_____; S_CONT; S_FOR; S_SWCH; S_____; S_DBGGR; S_FUNC; S_THIS; S_____; S_IF; S_THRW;
   S_IMPT; S_TRY; S_____; S_TRUE; S_FALS; S_NULL; S_UNDE; S_STR; S_NUM; S_BIN; S_____; S_____;
   S_____; S_____; S_____; S_____; S_____; S_____; S_LABL; S_____; S_TPLE; S_TPLS; S_____; S_____].
