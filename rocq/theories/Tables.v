(* GENERATED by tools/gen_tables.py from /repo/src/lib/xmltok.rs and /repo/src/lib/nametab.rs.
   Do not edit. *)
From Coq Require Import List NArith.
From Verif Require Import Base.
Import ListNotations.
Local Open Scope N_scope.

(* xmltok.rs:1177-1247 Utf8EncodingTable::types *)
Definition Utf8EncodingTable : list ByteType := [
  BT_NONXML; BT_NONXML; BT_NONXML; BT_NONXML; BT_NONXML; BT_NONXML; BT_NONXML; BT_NONXML;
  BT_NONXML; BT_S; BT_LF; BT_NONXML; BT_NONXML; BT_CR; BT_NONXML; BT_NONXML;
  BT_NONXML; BT_NONXML; BT_NONXML; BT_NONXML; BT_NONXML; BT_NONXML; BT_NONXML; BT_NONXML;
  BT_NONXML; BT_NONXML; BT_NONXML; BT_NONXML; BT_NONXML; BT_NONXML; BT_NONXML; BT_NONXML;
  BT_S; BT_EXCL; BT_QUOT; BT_NUM; BT_OTHER; BT_PERCNT; BT_AMP; BT_APOS;
  BT_LPAR; BT_RPAR; BT_AST; BT_PLUS; BT_COMMA; BT_MINUS; BT_NAME; BT_SOL;
  BT_DIGIT; BT_DIGIT; BT_DIGIT; BT_DIGIT; BT_DIGIT; BT_DIGIT; BT_DIGIT; BT_DIGIT;
  BT_DIGIT; BT_DIGIT; BT_NMSTRT; BT_SEMI; BT_LT; BT_EQUALS; BT_GT; BT_QUEST;
  BT_OTHER; BT_HEX; BT_HEX; BT_HEX; BT_HEX; BT_HEX; BT_HEX; BT_NMSTRT;
  BT_NMSTRT; BT_NMSTRT; BT_NMSTRT; BT_NMSTRT; BT_NMSTRT; BT_NMSTRT; BT_NMSTRT; BT_NMSTRT;
  BT_NMSTRT; BT_NMSTRT; BT_NMSTRT; BT_NMSTRT; BT_NMSTRT; BT_NMSTRT; BT_NMSTRT; BT_NMSTRT;
  BT_NMSTRT; BT_NMSTRT; BT_NMSTRT; BT_LSQB; BT_OTHER; BT_RSQB; BT_OTHER; BT_NMSTRT;
  BT_OTHER; BT_HEX; BT_HEX; BT_HEX; BT_HEX; BT_HEX; BT_HEX; BT_NMSTRT;
  BT_NMSTRT; BT_NMSTRT; BT_NMSTRT; BT_NMSTRT; BT_NMSTRT; BT_NMSTRT; BT_NMSTRT; BT_NMSTRT;
  BT_NMSTRT; BT_NMSTRT; BT_NMSTRT; BT_NMSTRT; BT_NMSTRT; BT_NMSTRT; BT_NMSTRT; BT_NMSTRT;
  BT_NMSTRT; BT_NMSTRT; BT_NMSTRT; BT_OTHER; BT_VERBAR; BT_OTHER; BT_OTHER; BT_OTHER;
  BT_TRAIL; BT_TRAIL; BT_TRAIL; BT_TRAIL; BT_TRAIL; BT_TRAIL; BT_TRAIL; BT_TRAIL;
  BT_TRAIL; BT_TRAIL; BT_TRAIL; BT_TRAIL; BT_TRAIL; BT_TRAIL; BT_TRAIL; BT_TRAIL;
  BT_TRAIL; BT_TRAIL; BT_TRAIL; BT_TRAIL; BT_TRAIL; BT_TRAIL; BT_TRAIL; BT_TRAIL;
  BT_TRAIL; BT_TRAIL; BT_TRAIL; BT_TRAIL; BT_TRAIL; BT_TRAIL; BT_TRAIL; BT_TRAIL;
  BT_TRAIL; BT_TRAIL; BT_TRAIL; BT_TRAIL; BT_TRAIL; BT_TRAIL; BT_TRAIL; BT_TRAIL;
  BT_TRAIL; BT_TRAIL; BT_TRAIL; BT_TRAIL; BT_TRAIL; BT_TRAIL; BT_TRAIL; BT_TRAIL;
  BT_TRAIL; BT_TRAIL; BT_TRAIL; BT_TRAIL; BT_TRAIL; BT_TRAIL; BT_TRAIL; BT_TRAIL;
  BT_TRAIL; BT_TRAIL; BT_TRAIL; BT_TRAIL; BT_TRAIL; BT_TRAIL; BT_TRAIL; BT_TRAIL;
  BT_LEAD2; BT_LEAD2; BT_LEAD2; BT_LEAD2; BT_LEAD2; BT_LEAD2; BT_LEAD2; BT_LEAD2;
  BT_LEAD2; BT_LEAD2; BT_LEAD2; BT_LEAD2; BT_LEAD2; BT_LEAD2; BT_LEAD2; BT_LEAD2;
  BT_LEAD2; BT_LEAD2; BT_LEAD2; BT_LEAD2; BT_LEAD2; BT_LEAD2; BT_LEAD2; BT_LEAD2;
  BT_LEAD2; BT_LEAD2; BT_LEAD2; BT_LEAD2; BT_LEAD2; BT_LEAD2; BT_LEAD2; BT_LEAD2;
  BT_LEAD3; BT_LEAD3; BT_LEAD3; BT_LEAD3; BT_LEAD3; BT_LEAD3; BT_LEAD3; BT_LEAD3;
  BT_LEAD3; BT_LEAD3; BT_LEAD3; BT_LEAD3; BT_LEAD3; BT_LEAD3; BT_LEAD3; BT_LEAD3;
  BT_LEAD4; BT_LEAD4; BT_LEAD4; BT_LEAD4; BT_LEAD4; BT_NONXML; BT_NONXML; BT_NONXML;
  BT_NONXML; BT_NONXML; BT_NONXML; BT_NONXML; BT_NONXML; BT_NONXML; BT_MALFORM; BT_MALFORM
].

(* xmltok.rs:1251-1321 Utf8EncodingTableNS::types *)
Definition Utf8EncodingTableNS : list ByteType := [
  BT_NONXML; BT_NONXML; BT_NONXML; BT_NONXML; BT_NONXML; BT_NONXML; BT_NONXML; BT_NONXML;
  BT_NONXML; BT_S; BT_LF; BT_NONXML; BT_NONXML; BT_CR; BT_NONXML; BT_NONXML;
  BT_NONXML; BT_NONXML; BT_NONXML; BT_NONXML; BT_NONXML; BT_NONXML; BT_NONXML; BT_NONXML;
  BT_NONXML; BT_NONXML; BT_NONXML; BT_NONXML; BT_NONXML; BT_NONXML; BT_NONXML; BT_NONXML;
  BT_S; BT_EXCL; BT_QUOT; BT_NUM; BT_OTHER; BT_PERCNT; BT_AMP; BT_APOS;
  BT_LPAR; BT_RPAR; BT_AST; BT_PLUS; BT_COMMA; BT_MINUS; BT_NAME; BT_SOL;
  BT_DIGIT; BT_DIGIT; BT_DIGIT; BT_DIGIT; BT_DIGIT; BT_DIGIT; BT_DIGIT; BT_DIGIT;
  BT_DIGIT; BT_DIGIT; BT_COLON; BT_SEMI; BT_LT; BT_EQUALS; BT_GT; BT_QUEST;
  BT_OTHER; BT_HEX; BT_HEX; BT_HEX; BT_HEX; BT_HEX; BT_HEX; BT_NMSTRT;
  BT_NMSTRT; BT_NMSTRT; BT_NMSTRT; BT_NMSTRT; BT_NMSTRT; BT_NMSTRT; BT_NMSTRT; BT_NMSTRT;
  BT_NMSTRT; BT_NMSTRT; BT_NMSTRT; BT_NMSTRT; BT_NMSTRT; BT_NMSTRT; BT_NMSTRT; BT_NMSTRT;
  BT_NMSTRT; BT_NMSTRT; BT_NMSTRT; BT_LSQB; BT_OTHER; BT_RSQB; BT_OTHER; BT_NMSTRT;
  BT_OTHER; BT_HEX; BT_HEX; BT_HEX; BT_HEX; BT_HEX; BT_HEX; BT_NMSTRT;
  BT_NMSTRT; BT_NMSTRT; BT_NMSTRT; BT_NMSTRT; BT_NMSTRT; BT_NMSTRT; BT_NMSTRT; BT_NMSTRT;
  BT_NMSTRT; BT_NMSTRT; BT_NMSTRT; BT_NMSTRT; BT_NMSTRT; BT_NMSTRT; BT_NMSTRT; BT_NMSTRT;
  BT_NMSTRT; BT_NMSTRT; BT_NMSTRT; BT_OTHER; BT_VERBAR; BT_OTHER; BT_OTHER; BT_OTHER;
  BT_TRAIL; BT_TRAIL; BT_TRAIL; BT_TRAIL; BT_TRAIL; BT_TRAIL; BT_TRAIL; BT_TRAIL;
  BT_TRAIL; BT_TRAIL; BT_TRAIL; BT_TRAIL; BT_TRAIL; BT_TRAIL; BT_TRAIL; BT_TRAIL;
  BT_TRAIL; BT_TRAIL; BT_TRAIL; BT_TRAIL; BT_TRAIL; BT_TRAIL; BT_TRAIL; BT_TRAIL;
  BT_TRAIL; BT_TRAIL; BT_TRAIL; BT_TRAIL; BT_TRAIL; BT_TRAIL; BT_TRAIL; BT_TRAIL;
  BT_TRAIL; BT_TRAIL; BT_TRAIL; BT_TRAIL; BT_TRAIL; BT_TRAIL; BT_TRAIL; BT_TRAIL;
  BT_TRAIL; BT_TRAIL; BT_TRAIL; BT_TRAIL; BT_TRAIL; BT_TRAIL; BT_TRAIL; BT_TRAIL;
  BT_TRAIL; BT_TRAIL; BT_TRAIL; BT_TRAIL; BT_TRAIL; BT_TRAIL; BT_TRAIL; BT_TRAIL;
  BT_TRAIL; BT_TRAIL; BT_TRAIL; BT_TRAIL; BT_TRAIL; BT_TRAIL; BT_TRAIL; BT_TRAIL;
  BT_LEAD2; BT_LEAD2; BT_LEAD2; BT_LEAD2; BT_LEAD2; BT_LEAD2; BT_LEAD2; BT_LEAD2;
  BT_LEAD2; BT_LEAD2; BT_LEAD2; BT_LEAD2; BT_LEAD2; BT_LEAD2; BT_LEAD2; BT_LEAD2;
  BT_LEAD2; BT_LEAD2; BT_LEAD2; BT_LEAD2; BT_LEAD2; BT_LEAD2; BT_LEAD2; BT_LEAD2;
  BT_LEAD2; BT_LEAD2; BT_LEAD2; BT_LEAD2; BT_LEAD2; BT_LEAD2; BT_LEAD2; BT_LEAD2;
  BT_LEAD3; BT_LEAD3; BT_LEAD3; BT_LEAD3; BT_LEAD3; BT_LEAD3; BT_LEAD3; BT_LEAD3;
  BT_LEAD3; BT_LEAD3; BT_LEAD3; BT_LEAD3; BT_LEAD3; BT_LEAD3; BT_LEAD3; BT_LEAD3;
  BT_LEAD4; BT_LEAD4; BT_LEAD4; BT_LEAD4; BT_LEAD4; BT_NONXML; BT_NONXML; BT_NONXML;
  BT_NONXML; BT_NONXML; BT_NONXML; BT_NONXML; BT_NONXML; BT_NONXML; BT_MALFORM; BT_MALFORM
].

(* xmltok.rs:1325-1396 InternalUtf8EncodingTable::types *)
Definition InternalUtf8EncodingTable : list ByteType := [
  BT_NONXML; BT_NONXML; BT_NONXML; BT_NONXML; BT_NONXML; BT_NONXML; BT_NONXML; BT_NONXML;
  BT_NONXML; BT_S; BT_LF; BT_NONXML; BT_NONXML; BT_S; BT_NONXML; BT_NONXML;
  BT_NONXML; BT_NONXML; BT_NONXML; BT_NONXML; BT_NONXML; BT_NONXML; BT_NONXML; BT_NONXML;
  BT_NONXML; BT_NONXML; BT_NONXML; BT_NONXML; BT_NONXML; BT_NONXML; BT_NONXML; BT_NONXML;
  BT_S; BT_EXCL; BT_QUOT; BT_NUM; BT_OTHER; BT_PERCNT; BT_AMP; BT_APOS;
  BT_LPAR; BT_RPAR; BT_AST; BT_PLUS; BT_COMMA; BT_MINUS; BT_NAME; BT_SOL;
  BT_DIGIT; BT_DIGIT; BT_DIGIT; BT_DIGIT; BT_DIGIT; BT_DIGIT; BT_DIGIT; BT_DIGIT;
  BT_DIGIT; BT_DIGIT; BT_NMSTRT; BT_SEMI; BT_LT; BT_EQUALS; BT_GT; BT_QUEST;
  BT_OTHER; BT_HEX; BT_HEX; BT_HEX; BT_HEX; BT_HEX; BT_HEX; BT_NMSTRT;
  BT_NMSTRT; BT_NMSTRT; BT_NMSTRT; BT_NMSTRT; BT_NMSTRT; BT_NMSTRT; BT_NMSTRT; BT_NMSTRT;
  BT_NMSTRT; BT_NMSTRT; BT_NMSTRT; BT_NMSTRT; BT_NMSTRT; BT_NMSTRT; BT_NMSTRT; BT_NMSTRT;
  BT_NMSTRT; BT_NMSTRT; BT_NMSTRT; BT_LSQB; BT_OTHER; BT_RSQB; BT_OTHER; BT_NMSTRT;
  BT_OTHER; BT_HEX; BT_HEX; BT_HEX; BT_HEX; BT_HEX; BT_HEX; BT_NMSTRT;
  BT_NMSTRT; BT_NMSTRT; BT_NMSTRT; BT_NMSTRT; BT_NMSTRT; BT_NMSTRT; BT_NMSTRT; BT_NMSTRT;
  BT_NMSTRT; BT_NMSTRT; BT_NMSTRT; BT_NMSTRT; BT_NMSTRT; BT_NMSTRT; BT_NMSTRT; BT_NMSTRT;
  BT_NMSTRT; BT_NMSTRT; BT_NMSTRT; BT_OTHER; BT_VERBAR; BT_OTHER; BT_OTHER; BT_OTHER;
  BT_TRAIL; BT_TRAIL; BT_TRAIL; BT_TRAIL; BT_TRAIL; BT_TRAIL; BT_TRAIL; BT_TRAIL;
  BT_TRAIL; BT_TRAIL; BT_TRAIL; BT_TRAIL; BT_TRAIL; BT_TRAIL; BT_TRAIL; BT_TRAIL;
  BT_TRAIL; BT_TRAIL; BT_TRAIL; BT_TRAIL; BT_TRAIL; BT_TRAIL; BT_TRAIL; BT_TRAIL;
  BT_TRAIL; BT_TRAIL; BT_TRAIL; BT_TRAIL; BT_TRAIL; BT_TRAIL; BT_TRAIL; BT_TRAIL;
  BT_TRAIL; BT_TRAIL; BT_TRAIL; BT_TRAIL; BT_TRAIL; BT_TRAIL; BT_TRAIL; BT_TRAIL;
  BT_TRAIL; BT_TRAIL; BT_TRAIL; BT_TRAIL; BT_TRAIL; BT_TRAIL; BT_TRAIL; BT_TRAIL;
  BT_TRAIL; BT_TRAIL; BT_TRAIL; BT_TRAIL; BT_TRAIL; BT_TRAIL; BT_TRAIL; BT_TRAIL;
  BT_TRAIL; BT_TRAIL; BT_TRAIL; BT_TRAIL; BT_TRAIL; BT_TRAIL; BT_TRAIL; BT_TRAIL;
  BT_LEAD2; BT_LEAD2; BT_LEAD2; BT_LEAD2; BT_LEAD2; BT_LEAD2; BT_LEAD2; BT_LEAD2;
  BT_LEAD2; BT_LEAD2; BT_LEAD2; BT_LEAD2; BT_LEAD2; BT_LEAD2; BT_LEAD2; BT_LEAD2;
  BT_LEAD2; BT_LEAD2; BT_LEAD2; BT_LEAD2; BT_LEAD2; BT_LEAD2; BT_LEAD2; BT_LEAD2;
  BT_LEAD2; BT_LEAD2; BT_LEAD2; BT_LEAD2; BT_LEAD2; BT_LEAD2; BT_LEAD2; BT_LEAD2;
  BT_LEAD3; BT_LEAD3; BT_LEAD3; BT_LEAD3; BT_LEAD3; BT_LEAD3; BT_LEAD3; BT_LEAD3;
  BT_LEAD3; BT_LEAD3; BT_LEAD3; BT_LEAD3; BT_LEAD3; BT_LEAD3; BT_LEAD3; BT_LEAD3;
  BT_LEAD4; BT_LEAD4; BT_LEAD4; BT_LEAD4; BT_LEAD4; BT_NONXML; BT_NONXML; BT_NONXML;
  BT_NONXML; BT_NONXML; BT_NONXML; BT_NONXML; BT_NONXML; BT_NONXML; BT_MALFORM; BT_MALFORM
].

(* xmltok.rs:1400-1471 InternalUtf8EncodingTableNS::types *)
Definition InternalUtf8EncodingTableNS : list ByteType := [
  BT_NONXML; BT_NONXML; BT_NONXML; BT_NONXML; BT_NONXML; BT_NONXML; BT_NONXML; BT_NONXML;
  BT_NONXML; BT_S; BT_LF; BT_NONXML; BT_NONXML; BT_S; BT_NONXML; BT_NONXML;
  BT_NONXML; BT_NONXML; BT_NONXML; BT_NONXML; BT_NONXML; BT_NONXML; BT_NONXML; BT_NONXML;
  BT_NONXML; BT_NONXML; BT_NONXML; BT_NONXML; BT_NONXML; BT_NONXML; BT_NONXML; BT_NONXML;
  BT_S; BT_EXCL; BT_QUOT; BT_NUM; BT_OTHER; BT_PERCNT; BT_AMP; BT_APOS;
  BT_LPAR; BT_RPAR; BT_AST; BT_PLUS; BT_COMMA; BT_MINUS; BT_NAME; BT_SOL;
  BT_DIGIT; BT_DIGIT; BT_DIGIT; BT_DIGIT; BT_DIGIT; BT_DIGIT; BT_DIGIT; BT_DIGIT;
  BT_DIGIT; BT_DIGIT; BT_COLON; BT_SEMI; BT_LT; BT_EQUALS; BT_GT; BT_QUEST;
  BT_OTHER; BT_HEX; BT_HEX; BT_HEX; BT_HEX; BT_HEX; BT_HEX; BT_NMSTRT;
  BT_NMSTRT; BT_NMSTRT; BT_NMSTRT; BT_NMSTRT; BT_NMSTRT; BT_NMSTRT; BT_NMSTRT; BT_NMSTRT;
  BT_NMSTRT; BT_NMSTRT; BT_NMSTRT; BT_NMSTRT; BT_NMSTRT; BT_NMSTRT; BT_NMSTRT; BT_NMSTRT;
  BT_NMSTRT; BT_NMSTRT; BT_NMSTRT; BT_LSQB; BT_OTHER; BT_RSQB; BT_OTHER; BT_NMSTRT;
  BT_OTHER; BT_HEX; BT_HEX; BT_HEX; BT_HEX; BT_HEX; BT_HEX; BT_NMSTRT;
  BT_NMSTRT; BT_NMSTRT; BT_NMSTRT; BT_NMSTRT; BT_NMSTRT; BT_NMSTRT; BT_NMSTRT; BT_NMSTRT;
  BT_NMSTRT; BT_NMSTRT; BT_NMSTRT; BT_NMSTRT; BT_NMSTRT; BT_NMSTRT; BT_NMSTRT; BT_NMSTRT;
  BT_NMSTRT; BT_NMSTRT; BT_NMSTRT; BT_OTHER; BT_VERBAR; BT_OTHER; BT_OTHER; BT_OTHER;
  BT_TRAIL; BT_TRAIL; BT_TRAIL; BT_TRAIL; BT_TRAIL; BT_TRAIL; BT_TRAIL; BT_TRAIL;
  BT_TRAIL; BT_TRAIL; BT_TRAIL; BT_TRAIL; BT_TRAIL; BT_TRAIL; BT_TRAIL; BT_TRAIL;
  BT_TRAIL; BT_TRAIL; BT_TRAIL; BT_TRAIL; BT_TRAIL; BT_TRAIL; BT_TRAIL; BT_TRAIL;
  BT_TRAIL; BT_TRAIL; BT_TRAIL; BT_TRAIL; BT_TRAIL; BT_TRAIL; BT_TRAIL; BT_TRAIL;
  BT_TRAIL; BT_TRAIL; BT_TRAIL; BT_TRAIL; BT_TRAIL; BT_TRAIL; BT_TRAIL; BT_TRAIL;
  BT_TRAIL; BT_TRAIL; BT_TRAIL; BT_TRAIL; BT_TRAIL; BT_TRAIL; BT_TRAIL; BT_TRAIL;
  BT_TRAIL; BT_TRAIL; BT_TRAIL; BT_TRAIL; BT_TRAIL; BT_TRAIL; BT_TRAIL; BT_TRAIL;
  BT_TRAIL; BT_TRAIL; BT_TRAIL; BT_TRAIL; BT_TRAIL; BT_TRAIL; BT_TRAIL; BT_TRAIL;
  BT_LEAD2; BT_LEAD2; BT_LEAD2; BT_LEAD2; BT_LEAD2; BT_LEAD2; BT_LEAD2; BT_LEAD2;
  BT_LEAD2; BT_LEAD2; BT_LEAD2; BT_LEAD2; BT_LEAD2; BT_LEAD2; BT_LEAD2; BT_LEAD2;
  BT_LEAD2; BT_LEAD2; BT_LEAD2; BT_LEAD2; BT_LEAD2; BT_LEAD2; BT_LEAD2; BT_LEAD2;
  BT_LEAD2; BT_LEAD2; BT_LEAD2; BT_LEAD2; BT_LEAD2; BT_LEAD2; BT_LEAD2; BT_LEAD2;
  BT_LEAD3; BT_LEAD3; BT_LEAD3; BT_LEAD3; BT_LEAD3; BT_LEAD3; BT_LEAD3; BT_LEAD3;
  BT_LEAD3; BT_LEAD3; BT_LEAD3; BT_LEAD3; BT_LEAD3; BT_LEAD3; BT_LEAD3; BT_LEAD3;
  BT_LEAD4; BT_LEAD4; BT_LEAD4; BT_LEAD4; BT_LEAD4; BT_NONXML; BT_NONXML; BT_NONXML;
  BT_NONXML; BT_NONXML; BT_NONXML; BT_NONXML; BT_NONXML; BT_NONXML; BT_MALFORM; BT_MALFORM
].

(* xmltok.rs:1475-1545 Latin1EncodingTable::types *)
Definition Latin1EncodingTable : list ByteType := [
  BT_NONXML; BT_NONXML; BT_NONXML; BT_NONXML; BT_NONXML; BT_NONXML; BT_NONXML; BT_NONXML;
  BT_NONXML; BT_S; BT_LF; BT_NONXML; BT_NONXML; BT_CR; BT_NONXML; BT_NONXML;
  BT_NONXML; BT_NONXML; BT_NONXML; BT_NONXML; BT_NONXML; BT_NONXML; BT_NONXML; BT_NONXML;
  BT_NONXML; BT_NONXML; BT_NONXML; BT_NONXML; BT_NONXML; BT_NONXML; BT_NONXML; BT_NONXML;
  BT_S; BT_EXCL; BT_QUOT; BT_NUM; BT_OTHER; BT_PERCNT; BT_AMP; BT_APOS;
  BT_LPAR; BT_RPAR; BT_AST; BT_PLUS; BT_COMMA; BT_MINUS; BT_NAME; BT_SOL;
  BT_DIGIT; BT_DIGIT; BT_DIGIT; BT_DIGIT; BT_DIGIT; BT_DIGIT; BT_DIGIT; BT_DIGIT;
  BT_DIGIT; BT_DIGIT; BT_NMSTRT; BT_SEMI; BT_LT; BT_EQUALS; BT_GT; BT_QUEST;
  BT_OTHER; BT_HEX; BT_HEX; BT_HEX; BT_HEX; BT_HEX; BT_HEX; BT_NMSTRT;
  BT_NMSTRT; BT_NMSTRT; BT_NMSTRT; BT_NMSTRT; BT_NMSTRT; BT_NMSTRT; BT_NMSTRT; BT_NMSTRT;
  BT_NMSTRT; BT_NMSTRT; BT_NMSTRT; BT_NMSTRT; BT_NMSTRT; BT_NMSTRT; BT_NMSTRT; BT_NMSTRT;
  BT_NMSTRT; BT_NMSTRT; BT_NMSTRT; BT_LSQB; BT_OTHER; BT_RSQB; BT_OTHER; BT_NMSTRT;
  BT_OTHER; BT_HEX; BT_HEX; BT_HEX; BT_HEX; BT_HEX; BT_HEX; BT_NMSTRT;
  BT_NMSTRT; BT_NMSTRT; BT_NMSTRT; BT_NMSTRT; BT_NMSTRT; BT_NMSTRT; BT_NMSTRT; BT_NMSTRT;
  BT_NMSTRT; BT_NMSTRT; BT_NMSTRT; BT_NMSTRT; BT_NMSTRT; BT_NMSTRT; BT_NMSTRT; BT_NMSTRT;
  BT_NMSTRT; BT_NMSTRT; BT_NMSTRT; BT_OTHER; BT_VERBAR; BT_OTHER; BT_OTHER; BT_OTHER;
  BT_OTHER; BT_OTHER; BT_OTHER; BT_OTHER; BT_OTHER; BT_OTHER; BT_OTHER; BT_OTHER;
  BT_OTHER; BT_OTHER; BT_OTHER; BT_OTHER; BT_OTHER; BT_OTHER; BT_OTHER; BT_OTHER;
  BT_OTHER; BT_OTHER; BT_OTHER; BT_OTHER; BT_OTHER; BT_OTHER; BT_OTHER; BT_OTHER;
  BT_OTHER; BT_OTHER; BT_OTHER; BT_OTHER; BT_OTHER; BT_OTHER; BT_OTHER; BT_OTHER;
  BT_OTHER; BT_OTHER; BT_OTHER; BT_OTHER; BT_OTHER; BT_OTHER; BT_OTHER; BT_OTHER;
  BT_OTHER; BT_OTHER; BT_NMSTRT; BT_OTHER; BT_OTHER; BT_OTHER; BT_OTHER; BT_OTHER;
  BT_OTHER; BT_OTHER; BT_OTHER; BT_OTHER; BT_OTHER; BT_NMSTRT; BT_OTHER; BT_NAME;
  BT_OTHER; BT_OTHER; BT_NMSTRT; BT_OTHER; BT_OTHER; BT_OTHER; BT_OTHER; BT_OTHER;
  BT_NMSTRT; BT_NMSTRT; BT_NMSTRT; BT_NMSTRT; BT_NMSTRT; BT_NMSTRT; BT_NMSTRT; BT_NMSTRT;
  BT_NMSTRT; BT_NMSTRT; BT_NMSTRT; BT_NMSTRT; BT_NMSTRT; BT_NMSTRT; BT_NMSTRT; BT_NMSTRT;
  BT_NMSTRT; BT_NMSTRT; BT_NMSTRT; BT_NMSTRT; BT_NMSTRT; BT_NMSTRT; BT_NMSTRT; BT_OTHER;
  BT_NMSTRT; BT_NMSTRT; BT_NMSTRT; BT_NMSTRT; BT_NMSTRT; BT_NMSTRT; BT_NMSTRT; BT_NMSTRT;
  BT_NMSTRT; BT_NMSTRT; BT_NMSTRT; BT_NMSTRT; BT_NMSTRT; BT_NMSTRT; BT_NMSTRT; BT_NMSTRT;
  BT_NMSTRT; BT_NMSTRT; BT_NMSTRT; BT_NMSTRT; BT_NMSTRT; BT_NMSTRT; BT_NMSTRT; BT_NMSTRT;
  BT_NMSTRT; BT_NMSTRT; BT_NMSTRT; BT_NMSTRT; BT_NMSTRT; BT_NMSTRT; BT_NMSTRT; BT_OTHER;
  BT_NMSTRT; BT_NMSTRT; BT_NMSTRT; BT_NMSTRT; BT_NMSTRT; BT_NMSTRT; BT_NMSTRT; BT_NMSTRT
].

(* xmltok.rs:1549-1619 Latin1EncodingTableNS::types *)
Definition Latin1EncodingTableNS : list ByteType := [
  BT_NONXML; BT_NONXML; BT_NONXML; BT_NONXML; BT_NONXML; BT_NONXML; BT_NONXML; BT_NONXML;
  BT_NONXML; BT_S; BT_LF; BT_NONXML; BT_NONXML; BT_CR; BT_NONXML; BT_NONXML;
  BT_NONXML; BT_NONXML; BT_NONXML; BT_NONXML; BT_NONXML; BT_NONXML; BT_NONXML; BT_NONXML;
  BT_NONXML; BT_NONXML; BT_NONXML; BT_NONXML; BT_NONXML; BT_NONXML; BT_NONXML; BT_NONXML;
  BT_S; BT_EXCL; BT_QUOT; BT_NUM; BT_OTHER; BT_PERCNT; BT_AMP; BT_APOS;
  BT_LPAR; BT_RPAR; BT_AST; BT_PLUS; BT_COMMA; BT_MINUS; BT_NAME; BT_SOL;
  BT_DIGIT; BT_DIGIT; BT_DIGIT; BT_DIGIT; BT_DIGIT; BT_DIGIT; BT_DIGIT; BT_DIGIT;
  BT_DIGIT; BT_DIGIT; BT_COLON; BT_SEMI; BT_LT; BT_EQUALS; BT_GT; BT_QUEST;
  BT_OTHER; BT_HEX; BT_HEX; BT_HEX; BT_HEX; BT_HEX; BT_HEX; BT_NMSTRT;
  BT_NMSTRT; BT_NMSTRT; BT_NMSTRT; BT_NMSTRT; BT_NMSTRT; BT_NMSTRT; BT_NMSTRT; BT_NMSTRT;
  BT_NMSTRT; BT_NMSTRT; BT_NMSTRT; BT_NMSTRT; BT_NMSTRT; BT_NMSTRT; BT_NMSTRT; BT_NMSTRT;
  BT_NMSTRT; BT_NMSTRT; BT_NMSTRT; BT_LSQB; BT_OTHER; BT_RSQB; BT_OTHER; BT_NMSTRT;
  BT_OTHER; BT_HEX; BT_HEX; BT_HEX; BT_HEX; BT_HEX; BT_HEX; BT_NMSTRT;
  BT_NMSTRT; BT_NMSTRT; BT_NMSTRT; BT_NMSTRT; BT_NMSTRT; BT_NMSTRT; BT_NMSTRT; BT_NMSTRT;
  BT_NMSTRT; BT_NMSTRT; BT_NMSTRT; BT_NMSTRT; BT_NMSTRT; BT_NMSTRT; BT_NMSTRT; BT_NMSTRT;
  BT_NMSTRT; BT_NMSTRT; BT_NMSTRT; BT_OTHER; BT_VERBAR; BT_OTHER; BT_OTHER; BT_OTHER;
  BT_OTHER; BT_OTHER; BT_OTHER; BT_OTHER; BT_OTHER; BT_OTHER; BT_OTHER; BT_OTHER;
  BT_OTHER; BT_OTHER; BT_OTHER; BT_OTHER; BT_OTHER; BT_OTHER; BT_OTHER; BT_OTHER;
  BT_OTHER; BT_OTHER; BT_OTHER; BT_OTHER; BT_OTHER; BT_OTHER; BT_OTHER; BT_OTHER;
  BT_OTHER; BT_OTHER; BT_OTHER; BT_OTHER; BT_OTHER; BT_OTHER; BT_OTHER; BT_OTHER;
  BT_OTHER; BT_OTHER; BT_OTHER; BT_OTHER; BT_OTHER; BT_OTHER; BT_OTHER; BT_OTHER;
  BT_OTHER; BT_OTHER; BT_NMSTRT; BT_OTHER; BT_OTHER; BT_OTHER; BT_OTHER; BT_OTHER;
  BT_OTHER; BT_OTHER; BT_OTHER; BT_OTHER; BT_OTHER; BT_NMSTRT; BT_OTHER; BT_NAME;
  BT_OTHER; BT_OTHER; BT_NMSTRT; BT_OTHER; BT_OTHER; BT_OTHER; BT_OTHER; BT_OTHER;
  BT_NMSTRT; BT_NMSTRT; BT_NMSTRT; BT_NMSTRT; BT_NMSTRT; BT_NMSTRT; BT_NMSTRT; BT_NMSTRT;
  BT_NMSTRT; BT_NMSTRT; BT_NMSTRT; BT_NMSTRT; BT_NMSTRT; BT_NMSTRT; BT_NMSTRT; BT_NMSTRT;
  BT_NMSTRT; BT_NMSTRT; BT_NMSTRT; BT_NMSTRT; BT_NMSTRT; BT_NMSTRT; BT_NMSTRT; BT_OTHER;
  BT_NMSTRT; BT_NMSTRT; BT_NMSTRT; BT_NMSTRT; BT_NMSTRT; BT_NMSTRT; BT_NMSTRT; BT_NMSTRT;
  BT_NMSTRT; BT_NMSTRT; BT_NMSTRT; BT_NMSTRT; BT_NMSTRT; BT_NMSTRT; BT_NMSTRT; BT_NMSTRT;
  BT_NMSTRT; BT_NMSTRT; BT_NMSTRT; BT_NMSTRT; BT_NMSTRT; BT_NMSTRT; BT_NMSTRT; BT_NMSTRT;
  BT_NMSTRT; BT_NMSTRT; BT_NMSTRT; BT_NMSTRT; BT_NMSTRT; BT_NMSTRT; BT_NMSTRT; BT_OTHER;
  BT_NMSTRT; BT_NMSTRT; BT_NMSTRT; BT_NMSTRT; BT_NMSTRT; BT_NMSTRT; BT_NMSTRT; BT_NMSTRT
].

(* xmltok.rs:1623-1694 InternalLatin1EncodingTable::types *)
Definition InternalLatin1EncodingTable : list ByteType := [
  BT_NONXML; BT_NONXML; BT_NONXML; BT_NONXML; BT_NONXML; BT_NONXML; BT_NONXML; BT_NONXML;
  BT_NONXML; BT_S; BT_LF; BT_NONXML; BT_NONXML; BT_S; BT_NONXML; BT_NONXML;
  BT_NONXML; BT_NONXML; BT_NONXML; BT_NONXML; BT_NONXML; BT_NONXML; BT_NONXML; BT_NONXML;
  BT_NONXML; BT_NONXML; BT_NONXML; BT_NONXML; BT_NONXML; BT_NONXML; BT_NONXML; BT_NONXML;
  BT_S; BT_EXCL; BT_QUOT; BT_NUM; BT_OTHER; BT_PERCNT; BT_AMP; BT_APOS;
  BT_LPAR; BT_RPAR; BT_AST; BT_PLUS; BT_COMMA; BT_MINUS; BT_NAME; BT_SOL;
  BT_DIGIT; BT_DIGIT; BT_DIGIT; BT_DIGIT; BT_DIGIT; BT_DIGIT; BT_DIGIT; BT_DIGIT;
  BT_DIGIT; BT_DIGIT; BT_NMSTRT; BT_SEMI; BT_LT; BT_EQUALS; BT_GT; BT_QUEST;
  BT_OTHER; BT_HEX; BT_HEX; BT_HEX; BT_HEX; BT_HEX; BT_HEX; BT_NMSTRT;
  BT_NMSTRT; BT_NMSTRT; BT_NMSTRT; BT_NMSTRT; BT_NMSTRT; BT_NMSTRT; BT_NMSTRT; BT_NMSTRT;
  BT_NMSTRT; BT_NMSTRT; BT_NMSTRT; BT_NMSTRT; BT_NMSTRT; BT_NMSTRT; BT_NMSTRT; BT_NMSTRT;
  BT_NMSTRT; BT_NMSTRT; BT_NMSTRT; BT_LSQB; BT_OTHER; BT_RSQB; BT_OTHER; BT_NMSTRT;
  BT_OTHER; BT_HEX; BT_HEX; BT_HEX; BT_HEX; BT_HEX; BT_HEX; BT_NMSTRT;
  BT_NMSTRT; BT_NMSTRT; BT_NMSTRT; BT_NMSTRT; BT_NMSTRT; BT_NMSTRT; BT_NMSTRT; BT_NMSTRT;
  BT_NMSTRT; BT_NMSTRT; BT_NMSTRT; BT_NMSTRT; BT_NMSTRT; BT_NMSTRT; BT_NMSTRT; BT_NMSTRT;
  BT_NMSTRT; BT_NMSTRT; BT_NMSTRT; BT_OTHER; BT_VERBAR; BT_OTHER; BT_OTHER; BT_OTHER;
  BT_OTHER; BT_OTHER; BT_OTHER; BT_OTHER; BT_OTHER; BT_OTHER; BT_OTHER; BT_OTHER;
  BT_OTHER; BT_OTHER; BT_OTHER; BT_OTHER; BT_OTHER; BT_OTHER; BT_OTHER; BT_OTHER;
  BT_OTHER; BT_OTHER; BT_OTHER; BT_OTHER; BT_OTHER; BT_OTHER; BT_OTHER; BT_OTHER;
  BT_OTHER; BT_OTHER; BT_OTHER; BT_OTHER; BT_OTHER; BT_OTHER; BT_OTHER; BT_OTHER;
  BT_OTHER; BT_OTHER; BT_OTHER; BT_OTHER; BT_OTHER; BT_OTHER; BT_OTHER; BT_OTHER;
  BT_OTHER; BT_OTHER; BT_NMSTRT; BT_OTHER; BT_OTHER; BT_OTHER; BT_OTHER; BT_OTHER;
  BT_OTHER; BT_OTHER; BT_OTHER; BT_OTHER; BT_OTHER; BT_NMSTRT; BT_OTHER; BT_NAME;
  BT_OTHER; BT_OTHER; BT_NMSTRT; BT_OTHER; BT_OTHER; BT_OTHER; BT_OTHER; BT_OTHER;
  BT_NMSTRT; BT_NMSTRT; BT_NMSTRT; BT_NMSTRT; BT_NMSTRT; BT_NMSTRT; BT_NMSTRT; BT_NMSTRT;
  BT_NMSTRT; BT_NMSTRT; BT_NMSTRT; BT_NMSTRT; BT_NMSTRT; BT_NMSTRT; BT_NMSTRT; BT_NMSTRT;
  BT_NMSTRT; BT_NMSTRT; BT_NMSTRT; BT_NMSTRT; BT_NMSTRT; BT_NMSTRT; BT_NMSTRT; BT_OTHER;
  BT_NMSTRT; BT_NMSTRT; BT_NMSTRT; BT_NMSTRT; BT_NMSTRT; BT_NMSTRT; BT_NMSTRT; BT_NMSTRT;
  BT_NMSTRT; BT_NMSTRT; BT_NMSTRT; BT_NMSTRT; BT_NMSTRT; BT_NMSTRT; BT_NMSTRT; BT_NMSTRT;
  BT_NMSTRT; BT_NMSTRT; BT_NMSTRT; BT_NMSTRT; BT_NMSTRT; BT_NMSTRT; BT_NMSTRT; BT_NMSTRT;
  BT_NMSTRT; BT_NMSTRT; BT_NMSTRT; BT_NMSTRT; BT_NMSTRT; BT_NMSTRT; BT_NMSTRT; BT_OTHER;
  BT_NMSTRT; BT_NMSTRT; BT_NMSTRT; BT_NMSTRT; BT_NMSTRT; BT_NMSTRT; BT_NMSTRT; BT_NMSTRT
].

(* xmltok.rs:1698-1769 InternalLatin1EncodingTableNS::types *)
Definition InternalLatin1EncodingTableNS : list ByteType := [
  BT_NONXML; BT_NONXML; BT_NONXML; BT_NONXML; BT_NONXML; BT_NONXML; BT_NONXML; BT_NONXML;
  BT_NONXML; BT_S; BT_LF; BT_NONXML; BT_NONXML; BT_S; BT_NONXML; BT_NONXML;
  BT_NONXML; BT_NONXML; BT_NONXML; BT_NONXML; BT_NONXML; BT_NONXML; BT_NONXML; BT_NONXML;
  BT_NONXML; BT_NONXML; BT_NONXML; BT_NONXML; BT_NONXML; BT_NONXML; BT_NONXML; BT_NONXML;
  BT_S; BT_EXCL; BT_QUOT; BT_NUM; BT_OTHER; BT_PERCNT; BT_AMP; BT_APOS;
  BT_LPAR; BT_RPAR; BT_AST; BT_PLUS; BT_COMMA; BT_MINUS; BT_NAME; BT_SOL;
  BT_DIGIT; BT_DIGIT; BT_DIGIT; BT_DIGIT; BT_DIGIT; BT_DIGIT; BT_DIGIT; BT_DIGIT;
  BT_DIGIT; BT_DIGIT; BT_COLON; BT_SEMI; BT_LT; BT_EQUALS; BT_GT; BT_QUEST;
  BT_OTHER; BT_HEX; BT_HEX; BT_HEX; BT_HEX; BT_HEX; BT_HEX; BT_NMSTRT;
  BT_NMSTRT; BT_NMSTRT; BT_NMSTRT; BT_NMSTRT; BT_NMSTRT; BT_NMSTRT; BT_NMSTRT; BT_NMSTRT;
  BT_NMSTRT; BT_NMSTRT; BT_NMSTRT; BT_NMSTRT; BT_NMSTRT; BT_NMSTRT; BT_NMSTRT; BT_NMSTRT;
  BT_NMSTRT; BT_NMSTRT; BT_NMSTRT; BT_LSQB; BT_OTHER; BT_RSQB; BT_OTHER; BT_NMSTRT;
  BT_OTHER; BT_HEX; BT_HEX; BT_HEX; BT_HEX; BT_HEX; BT_HEX; BT_NMSTRT;
  BT_NMSTRT; BT_NMSTRT; BT_NMSTRT; BT_NMSTRT; BT_NMSTRT; BT_NMSTRT; BT_NMSTRT; BT_NMSTRT;
  BT_NMSTRT; BT_NMSTRT; BT_NMSTRT; BT_NMSTRT; BT_NMSTRT; BT_NMSTRT; BT_NMSTRT; BT_NMSTRT;
  BT_NMSTRT; BT_NMSTRT; BT_NMSTRT; BT_OTHER; BT_VERBAR; BT_OTHER; BT_OTHER; BT_OTHER;
  BT_OTHER; BT_OTHER; BT_OTHER; BT_OTHER; BT_OTHER; BT_OTHER; BT_OTHER; BT_OTHER;
  BT_OTHER; BT_OTHER; BT_OTHER; BT_OTHER; BT_OTHER; BT_OTHER; BT_OTHER; BT_OTHER;
  BT_OTHER; BT_OTHER; BT_OTHER; BT_OTHER; BT_OTHER; BT_OTHER; BT_OTHER; BT_OTHER;
  BT_OTHER; BT_OTHER; BT_OTHER; BT_OTHER; BT_OTHER; BT_OTHER; BT_OTHER; BT_OTHER;
  BT_OTHER; BT_OTHER; BT_OTHER; BT_OTHER; BT_OTHER; BT_OTHER; BT_OTHER; BT_OTHER;
  BT_OTHER; BT_OTHER; BT_NMSTRT; BT_OTHER; BT_OTHER; BT_OTHER; BT_OTHER; BT_OTHER;
  BT_OTHER; BT_OTHER; BT_OTHER; BT_OTHER; BT_OTHER; BT_NMSTRT; BT_OTHER; BT_NAME;
  BT_OTHER; BT_OTHER; BT_NMSTRT; BT_OTHER; BT_OTHER; BT_OTHER; BT_OTHER; BT_OTHER;
  BT_NMSTRT; BT_NMSTRT; BT_NMSTRT; BT_NMSTRT; BT_NMSTRT; BT_NMSTRT; BT_NMSTRT; BT_NMSTRT;
  BT_NMSTRT; BT_NMSTRT; BT_NMSTRT; BT_NMSTRT; BT_NMSTRT; BT_NMSTRT; BT_NMSTRT; BT_NMSTRT;
  BT_NMSTRT; BT_NMSTRT; BT_NMSTRT; BT_NMSTRT; BT_NMSTRT; BT_NMSTRT; BT_NMSTRT; BT_OTHER;
  BT_NMSTRT; BT_NMSTRT; BT_NMSTRT; BT_NMSTRT; BT_NMSTRT; BT_NMSTRT; BT_NMSTRT; BT_NMSTRT;
  BT_NMSTRT; BT_NMSTRT; BT_NMSTRT; BT_NMSTRT; BT_NMSTRT; BT_NMSTRT; BT_NMSTRT; BT_NMSTRT;
  BT_NMSTRT; BT_NMSTRT; BT_NMSTRT; BT_NMSTRT; BT_NMSTRT; BT_NMSTRT; BT_NMSTRT; BT_NMSTRT;
  BT_NMSTRT; BT_NMSTRT; BT_NMSTRT; BT_NMSTRT; BT_NMSTRT; BT_NMSTRT; BT_NMSTRT; BT_OTHER;
  BT_NMSTRT; BT_NMSTRT; BT_NMSTRT; BT_NMSTRT; BT_NMSTRT; BT_NMSTRT; BT_NMSTRT; BT_NMSTRT
].

(* xmltok.rs:1773-1842 AsciiEncodingTable::types *)
Definition AsciiEncodingTable : list ByteType := [
  BT_NONXML; BT_NONXML; BT_NONXML; BT_NONXML; BT_NONXML; BT_NONXML; BT_NONXML; BT_NONXML;
  BT_NONXML; BT_S; BT_LF; BT_NONXML; BT_NONXML; BT_CR; BT_NONXML; BT_NONXML;
  BT_NONXML; BT_NONXML; BT_NONXML; BT_NONXML; BT_NONXML; BT_NONXML; BT_NONXML; BT_NONXML;
  BT_NONXML; BT_NONXML; BT_NONXML; BT_NONXML; BT_NONXML; BT_NONXML; BT_NONXML; BT_NONXML;
  BT_S; BT_EXCL; BT_QUOT; BT_NUM; BT_OTHER; BT_PERCNT; BT_AMP; BT_APOS;
  BT_LPAR; BT_RPAR; BT_AST; BT_PLUS; BT_COMMA; BT_MINUS; BT_NAME; BT_SOL;
  BT_DIGIT; BT_DIGIT; BT_DIGIT; BT_DIGIT; BT_DIGIT; BT_DIGIT; BT_DIGIT; BT_DIGIT;
  BT_DIGIT; BT_DIGIT; BT_NMSTRT; BT_SEMI; BT_LT; BT_EQUALS; BT_GT; BT_QUEST;
  BT_OTHER; BT_HEX; BT_HEX; BT_HEX; BT_HEX; BT_HEX; BT_HEX; BT_NMSTRT;
  BT_NMSTRT; BT_NMSTRT; BT_NMSTRT; BT_NMSTRT; BT_NMSTRT; BT_NMSTRT; BT_NMSTRT; BT_NMSTRT;
  BT_NMSTRT; BT_NMSTRT; BT_NMSTRT; BT_NMSTRT; BT_NMSTRT; BT_NMSTRT; BT_NMSTRT; BT_NMSTRT;
  BT_NMSTRT; BT_NMSTRT; BT_NMSTRT; BT_LSQB; BT_OTHER; BT_RSQB; BT_OTHER; BT_NMSTRT;
  BT_OTHER; BT_HEX; BT_HEX; BT_HEX; BT_HEX; BT_HEX; BT_HEX; BT_NMSTRT;
  BT_NMSTRT; BT_NMSTRT; BT_NMSTRT; BT_NMSTRT; BT_NMSTRT; BT_NMSTRT; BT_NMSTRT; BT_NMSTRT;
  BT_NMSTRT; BT_NMSTRT; BT_NMSTRT; BT_NMSTRT; BT_NMSTRT; BT_NMSTRT; BT_NMSTRT; BT_NMSTRT;
  BT_NMSTRT; BT_NMSTRT; BT_NMSTRT; BT_OTHER; BT_VERBAR; BT_OTHER; BT_OTHER; BT_OTHER;
  BT_NONXML; BT_NONXML; BT_NONXML; BT_NONXML; BT_NONXML; BT_NONXML; BT_NONXML; BT_NONXML;
  BT_NONXML; BT_NONXML; BT_NONXML; BT_NONXML; BT_NONXML; BT_NONXML; BT_NONXML; BT_NONXML;
  BT_NONXML; BT_NONXML; BT_NONXML; BT_NONXML; BT_NONXML; BT_NONXML; BT_NONXML; BT_NONXML;
  BT_NONXML; BT_NONXML; BT_NONXML; BT_NONXML; BT_NONXML; BT_NONXML; BT_NONXML; BT_NONXML;
  BT_NONXML; BT_NONXML; BT_NONXML; BT_NONXML; BT_NONXML; BT_NONXML; BT_NONXML; BT_NONXML;
  BT_NONXML; BT_NONXML; BT_NONXML; BT_NONXML; BT_NONXML; BT_NONXML; BT_NONXML; BT_NONXML;
  BT_NONXML; BT_NONXML; BT_NONXML; BT_NONXML; BT_NONXML; BT_NONXML; BT_NONXML; BT_NONXML;
  BT_NONXML; BT_NONXML; BT_NONXML; BT_NONXML; BT_NONXML; BT_NONXML; BT_NONXML; BT_NONXML;
  BT_NONXML; BT_NONXML; BT_NONXML; BT_NONXML; BT_NONXML; BT_NONXML; BT_NONXML; BT_NONXML;
  BT_NONXML; BT_NONXML; BT_NONXML; BT_NONXML; BT_NONXML; BT_NONXML; BT_NONXML; BT_NONXML;
  BT_NONXML; BT_NONXML; BT_NONXML; BT_NONXML; BT_NONXML; BT_NONXML; BT_NONXML; BT_NONXML;
  BT_NONXML; BT_NONXML; BT_NONXML; BT_NONXML; BT_NONXML; BT_NONXML; BT_NONXML; BT_NONXML;
  BT_NONXML; BT_NONXML; BT_NONXML; BT_NONXML; BT_NONXML; BT_NONXML; BT_NONXML; BT_NONXML;
  BT_NONXML; BT_NONXML; BT_NONXML; BT_NONXML; BT_NONXML; BT_NONXML; BT_NONXML; BT_NONXML;
  BT_NONXML; BT_NONXML; BT_NONXML; BT_NONXML; BT_NONXML; BT_NONXML; BT_NONXML; BT_NONXML;
  BT_NONXML; BT_NONXML; BT_NONXML; BT_NONXML; BT_NONXML; BT_NONXML; BT_NONXML; BT_NONXML
].

(* xmltok.rs:1846-1915 AsciiEncodingTableNS::types *)
Definition AsciiEncodingTableNS : list ByteType := [
  BT_NONXML; BT_NONXML; BT_NONXML; BT_NONXML; BT_NONXML; BT_NONXML; BT_NONXML; BT_NONXML;
  BT_NONXML; BT_S; BT_LF; BT_NONXML; BT_NONXML; BT_CR; BT_NONXML; BT_NONXML;
  BT_NONXML; BT_NONXML; BT_NONXML; BT_NONXML; BT_NONXML; BT_NONXML; BT_NONXML; BT_NONXML;
  BT_NONXML; BT_NONXML; BT_NONXML; BT_NONXML; BT_NONXML; BT_NONXML; BT_NONXML; BT_NONXML;
  BT_S; BT_EXCL; BT_QUOT; BT_NUM; BT_OTHER; BT_PERCNT; BT_AMP; BT_APOS;
  BT_LPAR; BT_RPAR; BT_AST; BT_PLUS; BT_COMMA; BT_MINUS; BT_NAME; BT_SOL;
  BT_DIGIT; BT_DIGIT; BT_DIGIT; BT_DIGIT; BT_DIGIT; BT_DIGIT; BT_DIGIT; BT_DIGIT;
  BT_DIGIT; BT_DIGIT; BT_COLON; BT_SEMI; BT_LT; BT_EQUALS; BT_GT; BT_QUEST;
  BT_OTHER; BT_HEX; BT_HEX; BT_HEX; BT_HEX; BT_HEX; BT_HEX; BT_NMSTRT;
  BT_NMSTRT; BT_NMSTRT; BT_NMSTRT; BT_NMSTRT; BT_NMSTRT; BT_NMSTRT; BT_NMSTRT; BT_NMSTRT;
  BT_NMSTRT; BT_NMSTRT; BT_NMSTRT; BT_NMSTRT; BT_NMSTRT; BT_NMSTRT; BT_NMSTRT; BT_NMSTRT;
  BT_NMSTRT; BT_NMSTRT; BT_NMSTRT; BT_LSQB; BT_OTHER; BT_RSQB; BT_OTHER; BT_NMSTRT;
  BT_OTHER; BT_HEX; BT_HEX; BT_HEX; BT_HEX; BT_HEX; BT_HEX; BT_NMSTRT;
  BT_NMSTRT; BT_NMSTRT; BT_NMSTRT; BT_NMSTRT; BT_NMSTRT; BT_NMSTRT; BT_NMSTRT; BT_NMSTRT;
  BT_NMSTRT; BT_NMSTRT; BT_NMSTRT; BT_NMSTRT; BT_NMSTRT; BT_NMSTRT; BT_NMSTRT; BT_NMSTRT;
  BT_NMSTRT; BT_NMSTRT; BT_NMSTRT; BT_OTHER; BT_VERBAR; BT_OTHER; BT_OTHER; BT_OTHER;
  BT_NONXML; BT_NONXML; BT_NONXML; BT_NONXML; BT_NONXML; BT_NONXML; BT_NONXML; BT_NONXML;
  BT_NONXML; BT_NONXML; BT_NONXML; BT_NONXML; BT_NONXML; BT_NONXML; BT_NONXML; BT_NONXML;
  BT_NONXML; BT_NONXML; BT_NONXML; BT_NONXML; BT_NONXML; BT_NONXML; BT_NONXML; BT_NONXML;
  BT_NONXML; BT_NONXML; BT_NONXML; BT_NONXML; BT_NONXML; BT_NONXML; BT_NONXML; BT_NONXML;
  BT_NONXML; BT_NONXML; BT_NONXML; BT_NONXML; BT_NONXML; BT_NONXML; BT_NONXML; BT_NONXML;
  BT_NONXML; BT_NONXML; BT_NONXML; BT_NONXML; BT_NONXML; BT_NONXML; BT_NONXML; BT_NONXML;
  BT_NONXML; BT_NONXML; BT_NONXML; BT_NONXML; BT_NONXML; BT_NONXML; BT_NONXML; BT_NONXML;
  BT_NONXML; BT_NONXML; BT_NONXML; BT_NONXML; BT_NONXML; BT_NONXML; BT_NONXML; BT_NONXML;
  BT_NONXML; BT_NONXML; BT_NONXML; BT_NONXML; BT_NONXML; BT_NONXML; BT_NONXML; BT_NONXML;
  BT_NONXML; BT_NONXML; BT_NONXML; BT_NONXML; BT_NONXML; BT_NONXML; BT_NONXML; BT_NONXML;
  BT_NONXML; BT_NONXML; BT_NONXML; BT_NONXML; BT_NONXML; BT_NONXML; BT_NONXML; BT_NONXML;
  BT_NONXML; BT_NONXML; BT_NONXML; BT_NONXML; BT_NONXML; BT_NONXML; BT_NONXML; BT_NONXML;
  BT_NONXML; BT_NONXML; BT_NONXML; BT_NONXML; BT_NONXML; BT_NONXML; BT_NONXML; BT_NONXML;
  BT_NONXML; BT_NONXML; BT_NONXML; BT_NONXML; BT_NONXML; BT_NONXML; BT_NONXML; BT_NONXML;
  BT_NONXML; BT_NONXML; BT_NONXML; BT_NONXML; BT_NONXML; BT_NONXML; BT_NONXML; BT_NONXML;
  BT_NONXML; BT_NONXML; BT_NONXML; BT_NONXML; BT_NONXML; BT_NONXML; BT_NONXML; BT_NONXML
].

(* nametab.rs:33-74 namingBitmap *)
Definition namingBitmap : list N := [
  0; 0; 0; 0; 0; 0; 0; 0;
  4294967295; 4294967295; 4294967295; 4294967295; 4294967295; 4294967295; 4294967295; 4294967295;
  0; 67108864; 2281701374; 134217726; 0; 0; 4286578687; 4286578687;
  4294967295; 2146697215; 4294966782; 2147483647; 4294967295; 4294967295; 4294959119; 4231135231;
  16777215; 0; 4294901760; 4294967295; 4294967295; 4160750079; 3; 0;
  0; 0; 0; 0; 4294956864; 4294967291; 1417641983; 1048573;
  4294959102; 4294967295; 3758030847; 4294967295; 4294901763; 4294967295; 4294908319; 54513663;
  0; 4294836224; 41943039; 4294967294; 127; 0; 4294901760; 460799;
  0; 134217726; 2046; 4294836224; 4294967295; 2097151999; 3112959; 96;
  4294967264; 603979775; 4278190080; 3; 4294549472; 63307263; 2952790016; 196611;
  4294543328; 57540095; 1577058304; 1835008; 4294684640; 602799615; 0; 1;
  4294549472; 600702463; 2952790016; 3; 3594373088; 62899992; 0; 0;
  4294828000; 66059775; 0; 3; 4294828000; 66059775; 1073741824; 3;
  4294828000; 67108351; 0; 3; 0; 0; 0; 0;
  4294967294; 884735; 63; 0; 4277151126; 537750702; 31; 0;
  0; 0; 4294967039; 1023; 0; 0; 0; 0;
  0; 0; 0; 0; 0; 4294967295; 4294901823; 8388607;
  514797; 1342177280; 2184269825; 2908843; 1073741824; 4118857984; 7; 33622016;
  4294967295; 4294967295; 4294967295; 4294967295; 268435455; 4294967295; 4294967295; 67108863;
  1061158911; 4294967295; 2868854591; 1073741823; 4294967295; 1608515583; 265232348; 534519807;
  0; 19520; 0; 0; 7; 0; 0; 0;
  128; 1022; 4294967294; 4294967295; 2097151; 4294967294; 4294967295; 134217727;
  4294967264; 8191; 0; 0; 0; 0; 0; 0;
  4294967295; 4294967295; 4294967295; 4294967295; 4294967295; 63; 0; 0;
  4294967295; 4294967295; 4294967295; 4294967295; 4294967295; 15; 0; 0;
  0; 134176768; 2281701374; 134217726; 0; 8388608; 4286578687; 4286578687;
  16777215; 0; 4294901760; 4294967295; 4294967295; 4160750079; 196611; 0;
  4294967295; 4294967295; 63; 3; 4294956992; 4294967291; 1417641983; 1048573;
  4294959102; 4294967295; 3758030847; 4294967295; 4294901883; 4294967295; 4294908319; 54513663;
  0; 4294836224; 41943039; 4294967294; 4294836351; 3154116603; 4294901782; 460799;
  0; 134217726; 524287; 4294902783; 4294967295; 2097151999; 4293885951; 67059199;
  4294967278; 4093640703; 4280172543; 65487; 4294549486; 3552968191; 2961193375; 262095;
  4294543332; 3547201023; 1577073031; 2097088; 4294684654; 4092460543; 15295; 65473;
  4294549486; 4090363391; 2965387663; 65475; 3594373100; 3284125464; 8404423; 65408;
  4294828014; 3287285247; 6307295; 65475; 4294828012; 3287285247; 1080049119; 65475;
  4294828012; 3288333823; 8404431; 65475; 0; 0; 0; 0;
  4294967294; 134184959; 67076095; 0; 4277151126; 1006595246; 67059551; 0;
  50331648; 3265266687; 4294967039; 4294837247; 4273934303; 50216959; 0; 0;
  0; 0; 0; 0; 0; 0; 536805376; 2;
  160; 4128766; 4294967294; 4294967295; 1713373183; 4294967294; 4294967295; 2013265919
].

(* nametab.rs:75-92 nmstrtPages *)
Definition nmstrtPages : list N := [
  2; 3; 4; 5; 6; 7; 8; 0;
  0; 9; 10; 11; 12; 13; 14; 15;
  16; 17; 0; 0; 0; 0; 0; 0;
  0; 0; 0; 0; 0; 0; 18; 19;
  0; 20; 0; 0; 0; 0; 0; 0;
  0; 0; 0; 0; 0; 0; 0; 0;
  21; 22; 0; 0; 0; 0; 0; 0;
  0; 0; 0; 0; 0; 0; 0; 0;
  0; 0; 0; 0; 0; 0; 0; 0;
  0; 0; 0; 0; 0; 0; 1; 1;
  1; 1; 1; 1; 1; 1; 1; 1;
  1; 1; 1; 1; 1; 1; 1; 1;
  1; 1; 1; 1; 1; 1; 1; 1;
  1; 1; 1; 1; 1; 1; 1; 1;
  1; 1; 1; 1; 1; 1; 1; 1;
  1; 1; 1; 1; 1; 1; 1; 1;
  1; 1; 1; 1; 1; 1; 1; 1;
  1; 1; 1; 1; 1; 1; 1; 1;
  1; 1; 1; 1; 1; 1; 1; 1;
  1; 1; 1; 1; 1; 1; 1; 23;
  0; 0; 0; 0; 0; 0; 0; 0;
  0; 0; 0; 0; 1; 1; 1; 1;
  1; 1; 1; 1; 1; 1; 1; 1;
  1; 1; 1; 1; 1; 1; 1; 1;
  1; 1; 1; 1; 1; 1; 1; 1;
  1; 1; 1; 1; 1; 1; 1; 1;
  1; 1; 1; 1; 1; 1; 1; 24;
  0; 0; 0; 0; 0; 0; 0; 0;
  0; 0; 0; 0; 0; 0; 0; 0;
  0; 0; 0; 0; 0; 0; 0; 0;
  0; 0; 0; 0; 0; 0; 0; 0;
  0; 0; 0; 0; 0; 0; 0; 0
].

(* nametab.rs:93-110 namePages *)
Definition namePages : list N := [
  25; 3; 26; 27; 28; 29; 30; 0;
  0; 31; 32; 33; 34; 35; 36; 37;
  16; 17; 0; 0; 0; 0; 0; 0;
  0; 0; 0; 0; 0; 0; 18; 19;
  38; 20; 0; 0; 0; 0; 0; 0;
  0; 0; 0; 0; 0; 0; 0; 0;
  39; 22; 0; 0; 0; 0; 0; 0;
  0; 0; 0; 0; 0; 0; 0; 0;
  0; 0; 0; 0; 0; 0; 0; 0;
  0; 0; 0; 0; 0; 0; 1; 1;
  1; 1; 1; 1; 1; 1; 1; 1;
  1; 1; 1; 1; 1; 1; 1; 1;
  1; 1; 1; 1; 1; 1; 1; 1;
  1; 1; 1; 1; 1; 1; 1; 1;
  1; 1; 1; 1; 1; 1; 1; 1;
  1; 1; 1; 1; 1; 1; 1; 1;
  1; 1; 1; 1; 1; 1; 1; 1;
  1; 1; 1; 1; 1; 1; 1; 1;
  1; 1; 1; 1; 1; 1; 1; 1;
  1; 1; 1; 1; 1; 1; 1; 23;
  0; 0; 0; 0; 0; 0; 0; 0;
  0; 0; 0; 0; 1; 1; 1; 1;
  1; 1; 1; 1; 1; 1; 1; 1;
  1; 1; 1; 1; 1; 1; 1; 1;
  1; 1; 1; 1; 1; 1; 1; 1;
  1; 1; 1; 1; 1; 1; 1; 1;
  1; 1; 1; 1; 1; 1; 1; 24;
  0; 0; 0; 0; 0; 0; 0; 0;
  0; 0; 0; 0; 0; 0; 0; 0;
  0; 0; 0; 0; 0; 0; 0; 0;
  0; 0; 0; 0; 0; 0; 0; 0;
  0; 0; 0; 0; 0; 0; 0; 0
].
