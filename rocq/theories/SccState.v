(** State of the compiler scc.c: its global variables, grouped in three records
    (code output / tokenizer / declarations), the monad the model is written in,
    and the constants of scc.c.  The records and setters are plain data; each
    field cites the global variable it stands for.

    Conventions.
    - A C pointer into one of the global tables is an index into that table;
      links and look-up tables store [index + 1] and 0 is NULL.
    - [int] quantities that a source program controls (constants, literals,
      folded values) are normalised to the compiler's int width W by [ci];
      the compiler's own counters and addresses (CodeAddress, LocalOffset,
      Pending, table counts) are unbounded integers.  (Simplification: programs
      with more than 32 KiB of locals in one frame are outside the model.) *)
From Verif Require Import Base.

(** * State and error monad *)
Definition M (S A : Type) : Type := S -> outcome (A * S).

Definition ret {S A} (a : A) : M S A := fun s => Ok (a, s).
Definition bind {S A B} (m : M S A) (f : A -> M S B) : M S B :=
  fun s => match m s with
           | Ok (a, s1) => f a s1
           | Fatal => Fatal | UB => UB | OutOfFuel => OutOfFuel
           end.
Definition fatal {S A} : M S A := fun _ => Fatal.
Definition undef {S A} : M S A := fun _ => UB.
Definition nofuel {S A} : M S A := fun _ => OutOfFuel.
Definition gets {S A} (f : S -> A) : M S A := fun s => Ok (f s, s).
Definition upd {S} (f : S -> S) : M S unit := fun s => Ok (tt, f s).
Definition when {S} (b : bool) (m : M S unit) : M S unit := if b then m else ret tt.
Definition failif {S} (b : bool) : M S unit := if b then fatal else ret tt.

Declare Scope m_scope.
Delimit Scope m_scope with m.
Notation "'let!' x := a 'in' b" := (bind a (fun x => b))
  (at level 200, x pattern, a at level 100, b at level 200, right associativity) : m_scope.
Notation "a ;; b" := (bind a (fun _ => b))
  (at level 199, right associativity) : m_scope.
Open Scope m_scope.

(** * Constants (scc.c:162-282, 285-289, 935-996) *)
Definition CODESTART := 256.        (* scc.c:163 *)
Definition INBUF_MAX := 512.        (* scc.c:164 *)
Definition SCOPE_MAX := 16.
Definition VARDECL_MAX := 380.
Definition ID_MAX := 580.
Definition ID_HASHMAX := 1024.
Definition IDBUFFER_MAX := 5000.
Definition LABEL_MAX := 320.
Definition NAMED_LABEL_MAX := 8.
Definition OUTPUT_MAX := 24576.     (* 0x6000, scc.c:172 *)
Definition STRUCT_MAX := 8.
Definition STRUCT_MEMBER_MAX := 32.
Definition ARRAY_MAX := 32.
Definition GLOBAL_RESERVE := 4.
Definition ARGS_MAX := 8.           (* scc.c:177 *)

(** type flags, scc.c:181-209 *)
Definition VT_VOID := 0.
Definition VT_BOOL := 1.
Definition VT_CHAR := 2.
Definition VT_INT := 3.
Definition VT_STRUCT := 4.
Definition VT_ARRAY := 5.
Definition VT_BASEMASK := 7.
Definition VT_UNSIGNED := 8.
Definition VT_LVAL := 16.
Definition VT_FUN := 32.
Definition VT_FUNPTR := 96.
Definition VT_PTR1 := 128.
Definition VT_PTRMASK := 384.
Definition VT_LOCLIT := 512.
Definition VT_LOCOFF := 1024.
Definition VT_LOCGLOB := 1536.
Definition VT_LOCMASK := 1536.
Definition VT_STATIC := 2048.
Definition VT_TYPEDEF := 4096.
Definition IS_UNION_FLAG := 32768.  (* scc.c:316 *)

(** tokens, scc.c:212-282; a one-character token is its character code *)
Definition TOK_EOF := 0.
Definition TOK_NUM := 1.
Definition TOK_STRLIT := 2.
Definition TOK_EQEQ := 128.
Definition TOK_NOTEQ := 129.
Definition TOK_LTEQ := 130.
Definition TOK_GTEQ := 131.
Definition TOK_PLUSPLUS := 132.
Definition TOK_MINUSMINUS := 133.
Definition TOK_ANDAND := 134.
Definition TOK_OROR := 135.
Definition TOK_LSH := 136.
Definition TOK_RSH := 137.
Definition TOK_PLUSEQ := 138.
Definition TOK_MINUSEQ := 139.
Definition TOK_STAREQ := 140.
Definition TOK_SLASHEQ := 141.
Definition TOK_MODEQ := 142.
Definition TOK_LSHEQ := 143.
Definition TOK_RSHEQ := 144.
Definition TOK_ANDEQ := 145.
Definition TOK_XOREQ := 146.
Definition TOK_OREQ := 147.
Definition TOK_ELLIPSIS := 148.
Definition TOK_ARROW := 149.
Definition TOK_KEYWORD := 150.
Definition TOK_AUTO := 150.
Definition TOK_BREAK := 151.
Definition TOK_CASE := 152.
Definition TOK_CHAR := 153.
Definition TOK_CONST := 154.
Definition TOK_CONTINUE := 155.
Definition TOK_DEFAULT := 156.
Definition TOK_DO := 157.
Definition TOK_DOUBLE := 158.
Definition TOK_ELSE := 159.
Definition TOK_ENUM := 160.
Definition TOK_EXTERN := 161.
Definition TOK_FLOAT := 162.
Definition TOK_FOR := 163.
Definition TOK_GOTO := 164.
Definition TOK_IF := 165.
Definition TOK_INT := 166.
Definition TOK_LONG := 167.
Definition TOK_REGISTER := 168.
Definition TOK_RETURN := 169.
Definition TOK_SHORT := 170.
Definition TOK_SIGNED := 171.
Definition TOK_SIZEOF := 172.
Definition TOK_STATIC := 173.
Definition TOK_STRUCT := 174.
Definition TOK_SWITCH := 175.
Definition TOK_TYPEDEF := 176.
Definition TOK_UNION := 177.
Definition TOK_UNSIGNED := 178.
Definition TOK_VOID := 179.
Definition TOK_VOLATILE := 180.
Definition TOK_WHILE := 181.
Definition TOK_VA_LIST := 182.
Definition TOK_VA_START := 183.
Definition TOK_VA_END := 184.
Definition TOK_VA_ARG := 185.
Definition TOK__EMIT := 186.
Definition TOK_ID := 187.
Definition TOK__START := 187.
Definition TOK__SBSS := 188.
Definition TOK__EBSS := 189.

(** character codes *)
Definition ch_tab := 9.
Definition ch_nl := 10.
Definition ch_cr := 13.
Definition ch_sp := 32.
Definition ch_bang := 33.
Definition ch_dquote := 34.
Definition ch_hash := 35.
Definition ch_percent := 37.
Definition ch_amp := 38.
Definition ch_quote := 39.
Definition ch_lpar := 40.
Definition ch_rpar := 41.
Definition ch_star := 42.
Definition ch_plus := 43.
Definition ch_comma := 44.
Definition ch_minus := 45.
Definition ch_dot := 46.
Definition ch_slash := 47.
Definition ch_0 := 48.
Definition ch_colon := 58.
Definition ch_semi := 59.
Definition ch_lt := 60.
Definition ch_eq := 61.
Definition ch_gt := 62.
Definition ch_quest := 63.
Definition ch_A := 65.
Definition ch_X := 88.
Definition ch_Z := 90.
Definition ch_lbrack := 91.
Definition ch_bslash := 92.
Definition ch_rbrack := 93.
Definition ch_caret := 94.
Definition ch_under := 95.
Definition ch_n := 110.
Definition ch_r := 114.
Definition ch_t := 116.
Definition ch_x := 120.
Definition ch_lbrace := 123.
Definition ch_bar := 124.
Definition ch_rbrace := 125.
Definition ch_tilde := 126.

(** operator precedence, scc.c:285-289 *)
Definition PREC_ASSIGN := 14.
Definition PREC_COMMA := 15.
Definition PREC_STOP := 100.

(** condition codes, registers, opcodes: scc.c:935-996 *)
Definition JC := 2.
Definition JNC := 3.
Definition JZ := 4.
Definition JNZ := 5.
Definition JNA := 6.
Definition JA := 7.
Definition JL := 12.
Definition JNL := 13.
Definition JNG := 14.
Definition JG := 15.
Definition R_AX := 0.
Definition R_CX := 1.
Definition R_DX := 2.
Definition R_BX := 3.
Definition R_SP := 4.
Definition R_BP := 5.
Definition R_SI := 6.
Definition R_DI := 7.
Definition MODRM_DISP16 := 6.
Definition MODRM_SI := 4.
Definition MODRM_BP_DISP8 := 70.    (* 0x46 *)
Definition MODRM_BP_DISP16 := 134.  (* 0x86 *)
Definition MODRM_REG := 192.        (* 0xC0 *)
Definition I_ADD := 0.
Definition I_OR := 8.
Definition I_AND := 32.
Definition I_SUB := 40.
Definition I_XOR := 48.
Definition I_CMP := 56.
Definition I_INC := 64.
Definition I_DEC := 72.
Definition I_PUSH := 80.
Definition I_POP := 88.
Definition I_ALU_RM16_IMM16 := 129. (* 0x81 *)
Definition I_ALU_RM16_IMM8 := 131.  (* 0x83 *)
Definition I_MOV_R_RM := 136.       (* 0x88 *)
Definition I_LEA := 141.            (* 0x8D *)
Definition I_XCHG_AX := 144.        (* 0x90 *)
Definition I_MOV_R_IMM16 := 184.    (* 0xB8 *)
Definition I_STOSB := 170.          (* 0xAA *)
Definition I_LODSB := 172.          (* 0xAC *)
Definition I_RET := 195.            (* 0xC3 *)
Definition I_JMP_REL16 := 233.      (* 0xE9 *)
Definition I_JMP_REL8 := 235.       (* 0xEB *)
Definition SHROT_SHL := 4.
Definition SHROT_SHR := 5.
Definition SHROT_SAR := 7.

(** C bit operations used on flag words *)
Definition hasb (x m : Z) : bool := negb (Z.land x m =? 0).   (* x & m, as a condition *)
Definition clr (x m : Z) : Z := Z.ldiff x m.                    (* x & ~m *)

(** * Global variables *)
Record emst : Type := mkem {
  Output : arr Z; (* scc.c:423 *)
  CodeAddress : Z; (* scc.c:345 *)
  Pending : Z; (* scc.c:412-413 *)
  RegUse : bool; (* scc.c:414 *)
  LastZFInst : Z; (* scc.c:415 *)
  LastFixup : Z; (* scc.c:416 *)
  IsDeadCode : bool; (* scc.c:417 *)
  LAddr : arr Z; (* Labels[].Addr, scc.c:386, 298-301 *)
  LRef : arr Z; (* Labels[].Ref, scc.c:386, 298-301 *)
  LocalLabelCounter : Z; (* scc.c:387 *)
  LocalOffset : Z; (* scc.c:395 *)
  CurrentType : Z; (* scc.c:403 *)
  CurrentVal : Z; (* scc.c:404 *)
  CurrentTypeExtra : Z; (* scc.c:405 *)
  IsUnsignedOp : bool; (* scc.c:407 *)
  VOff : arr Z; (* VarDecls[].Offset, scc.c:379, 330-337 *)
  VRef : arr Z; (* VarDecls[].Ref, scc.c:379, 330-337 *)
}.
Definition set_Output (v : arr Z) (s : emst) : emst := mkem v (CodeAddress s) (Pending s) (RegUse s) (LastZFInst s) (LastFixup s) (IsDeadCode s) (LAddr s) (LRef s) (LocalLabelCounter s) (LocalOffset s) (CurrentType s) (CurrentVal s) (CurrentTypeExtra s) (IsUnsignedOp s) (VOff s) (VRef s).
Definition set_CodeAddress (v : Z) (s : emst) : emst := mkem (Output s) v (Pending s) (RegUse s) (LastZFInst s) (LastFixup s) (IsDeadCode s) (LAddr s) (LRef s) (LocalLabelCounter s) (LocalOffset s) (CurrentType s) (CurrentVal s) (CurrentTypeExtra s) (IsUnsignedOp s) (VOff s) (VRef s).
Definition set_Pending (v : Z) (s : emst) : emst := mkem (Output s) (CodeAddress s) v (RegUse s) (LastZFInst s) (LastFixup s) (IsDeadCode s) (LAddr s) (LRef s) (LocalLabelCounter s) (LocalOffset s) (CurrentType s) (CurrentVal s) (CurrentTypeExtra s) (IsUnsignedOp s) (VOff s) (VRef s).
Definition set_RegUse (v : bool) (s : emst) : emst := mkem (Output s) (CodeAddress s) (Pending s) v (LastZFInst s) (LastFixup s) (IsDeadCode s) (LAddr s) (LRef s) (LocalLabelCounter s) (LocalOffset s) (CurrentType s) (CurrentVal s) (CurrentTypeExtra s) (IsUnsignedOp s) (VOff s) (VRef s).
Definition set_LastZFInst (v : Z) (s : emst) : emst := mkem (Output s) (CodeAddress s) (Pending s) (RegUse s) v (LastFixup s) (IsDeadCode s) (LAddr s) (LRef s) (LocalLabelCounter s) (LocalOffset s) (CurrentType s) (CurrentVal s) (CurrentTypeExtra s) (IsUnsignedOp s) (VOff s) (VRef s).
Definition set_LastFixup (v : Z) (s : emst) : emst := mkem (Output s) (CodeAddress s) (Pending s) (RegUse s) (LastZFInst s) v (IsDeadCode s) (LAddr s) (LRef s) (LocalLabelCounter s) (LocalOffset s) (CurrentType s) (CurrentVal s) (CurrentTypeExtra s) (IsUnsignedOp s) (VOff s) (VRef s).
Definition set_IsDeadCode (v : bool) (s : emst) : emst := mkem (Output s) (CodeAddress s) (Pending s) (RegUse s) (LastZFInst s) (LastFixup s) v (LAddr s) (LRef s) (LocalLabelCounter s) (LocalOffset s) (CurrentType s) (CurrentVal s) (CurrentTypeExtra s) (IsUnsignedOp s) (VOff s) (VRef s).
Definition set_LAddr (v : arr Z) (s : emst) : emst := mkem (Output s) (CodeAddress s) (Pending s) (RegUse s) (LastZFInst s) (LastFixup s) (IsDeadCode s) v (LRef s) (LocalLabelCounter s) (LocalOffset s) (CurrentType s) (CurrentVal s) (CurrentTypeExtra s) (IsUnsignedOp s) (VOff s) (VRef s).
Definition set_LRef (v : arr Z) (s : emst) : emst := mkem (Output s) (CodeAddress s) (Pending s) (RegUse s) (LastZFInst s) (LastFixup s) (IsDeadCode s) (LAddr s) v (LocalLabelCounter s) (LocalOffset s) (CurrentType s) (CurrentVal s) (CurrentTypeExtra s) (IsUnsignedOp s) (VOff s) (VRef s).
Definition set_LocalLabelCounter (v : Z) (s : emst) : emst := mkem (Output s) (CodeAddress s) (Pending s) (RegUse s) (LastZFInst s) (LastFixup s) (IsDeadCode s) (LAddr s) (LRef s) v (LocalOffset s) (CurrentType s) (CurrentVal s) (CurrentTypeExtra s) (IsUnsignedOp s) (VOff s) (VRef s).
Definition set_LocalOffset (v : Z) (s : emst) : emst := mkem (Output s) (CodeAddress s) (Pending s) (RegUse s) (LastZFInst s) (LastFixup s) (IsDeadCode s) (LAddr s) (LRef s) (LocalLabelCounter s) v (CurrentType s) (CurrentVal s) (CurrentTypeExtra s) (IsUnsignedOp s) (VOff s) (VRef s).
Definition set_CurrentType (v : Z) (s : emst) : emst := mkem (Output s) (CodeAddress s) (Pending s) (RegUse s) (LastZFInst s) (LastFixup s) (IsDeadCode s) (LAddr s) (LRef s) (LocalLabelCounter s) (LocalOffset s) v (CurrentVal s) (CurrentTypeExtra s) (IsUnsignedOp s) (VOff s) (VRef s).
Definition set_CurrentVal (v : Z) (s : emst) : emst := mkem (Output s) (CodeAddress s) (Pending s) (RegUse s) (LastZFInst s) (LastFixup s) (IsDeadCode s) (LAddr s) (LRef s) (LocalLabelCounter s) (LocalOffset s) (CurrentType s) v (CurrentTypeExtra s) (IsUnsignedOp s) (VOff s) (VRef s).
Definition set_CurrentTypeExtra (v : Z) (s : emst) : emst := mkem (Output s) (CodeAddress s) (Pending s) (RegUse s) (LastZFInst s) (LastFixup s) (IsDeadCode s) (LAddr s) (LRef s) (LocalLabelCounter s) (LocalOffset s) (CurrentType s) (CurrentVal s) v (IsUnsignedOp s) (VOff s) (VRef s).
Definition set_IsUnsignedOp (v : bool) (s : emst) : emst := mkem (Output s) (CodeAddress s) (Pending s) (RegUse s) (LastZFInst s) (LastFixup s) (IsDeadCode s) (LAddr s) (LRef s) (LocalLabelCounter s) (LocalOffset s) (CurrentType s) (CurrentVal s) (CurrentTypeExtra s) v (VOff s) (VRef s).
Definition set_VOff (v : arr Z) (s : emst) : emst := mkem (Output s) (CodeAddress s) (Pending s) (RegUse s) (LastZFInst s) (LastFixup s) (IsDeadCode s) (LAddr s) (LRef s) (LocalLabelCounter s) (LocalOffset s) (CurrentType s) (CurrentVal s) (CurrentTypeExtra s) (IsUnsignedOp s) v (VRef s).
Definition set_VRef (v : arr Z) (s : emst) : emst := mkem (Output s) (CodeAddress s) (Pending s) (RegUse s) (LastZFInst s) (LastFixup s) (IsDeadCode s) (LAddr s) (LRef s) (LocalLabelCounter s) (LocalOffset s) (CurrentType s) (CurrentVal s) (CurrentTypeExtra s) (IsUnsignedOp s) (VOff s) v.

Record lexst : Type := mklx {
  InBuf : arr Z; (* scc.c:351 *)
  InBufPtr : Z; (* index into InBuf, scc.c:352 *)
  File : list Z; (* bytes of InFile not read yet, scc.c:350 *)
  Sched : list Z; (* sizes the next read() calls return at most (environment) *)
  CurChar : Z; (* scc.c:354 *)
  Line : Z; (* scc.c:356 *)
  TokenType : Z; (* scc.c:358 *)
  TokenNumVal : Z; (* scc.c:359 *)
  TokenStrLit : Z; (* index into Output, scc.c:360 *)
  OperatorPrecedence : Z; (* scc.c:361 *)
  IdBufPtr : Z; (* offset from IdBuffer, scc.c:364 *)
  IdText : arr (list Z); (* spelling of each id, scc.c:366 *)
  IdHashTab : arr Z; (* scc.c:367 *)
  IdCount : Z; (* scc.c:368 *)
}.
Definition set_InBuf (v : arr Z) (s : lexst) : lexst := mklx v (InBufPtr s) (File s) (Sched s) (CurChar s) (Line s) (TokenType s) (TokenNumVal s) (TokenStrLit s) (OperatorPrecedence s) (IdBufPtr s) (IdText s) (IdHashTab s) (IdCount s).
Definition set_InBufPtr (v : Z) (s : lexst) : lexst := mklx (InBuf s) v (File s) (Sched s) (CurChar s) (Line s) (TokenType s) (TokenNumVal s) (TokenStrLit s) (OperatorPrecedence s) (IdBufPtr s) (IdText s) (IdHashTab s) (IdCount s).
Definition set_File (v : list Z) (s : lexst) : lexst := mklx (InBuf s) (InBufPtr s) v (Sched s) (CurChar s) (Line s) (TokenType s) (TokenNumVal s) (TokenStrLit s) (OperatorPrecedence s) (IdBufPtr s) (IdText s) (IdHashTab s) (IdCount s).
Definition set_Sched (v : list Z) (s : lexst) : lexst := mklx (InBuf s) (InBufPtr s) (File s) v (CurChar s) (Line s) (TokenType s) (TokenNumVal s) (TokenStrLit s) (OperatorPrecedence s) (IdBufPtr s) (IdText s) (IdHashTab s) (IdCount s).
Definition set_CurChar (v : Z) (s : lexst) : lexst := mklx (InBuf s) (InBufPtr s) (File s) (Sched s) v (Line s) (TokenType s) (TokenNumVal s) (TokenStrLit s) (OperatorPrecedence s) (IdBufPtr s) (IdText s) (IdHashTab s) (IdCount s).
Definition set_Line (v : Z) (s : lexst) : lexst := mklx (InBuf s) (InBufPtr s) (File s) (Sched s) (CurChar s) v (TokenType s) (TokenNumVal s) (TokenStrLit s) (OperatorPrecedence s) (IdBufPtr s) (IdText s) (IdHashTab s) (IdCount s).
Definition set_TokenType (v : Z) (s : lexst) : lexst := mklx (InBuf s) (InBufPtr s) (File s) (Sched s) (CurChar s) (Line s) v (TokenNumVal s) (TokenStrLit s) (OperatorPrecedence s) (IdBufPtr s) (IdText s) (IdHashTab s) (IdCount s).
Definition set_TokenNumVal (v : Z) (s : lexst) : lexst := mklx (InBuf s) (InBufPtr s) (File s) (Sched s) (CurChar s) (Line s) (TokenType s) v (TokenStrLit s) (OperatorPrecedence s) (IdBufPtr s) (IdText s) (IdHashTab s) (IdCount s).
Definition set_TokenStrLit (v : Z) (s : lexst) : lexst := mklx (InBuf s) (InBufPtr s) (File s) (Sched s) (CurChar s) (Line s) (TokenType s) (TokenNumVal s) v (OperatorPrecedence s) (IdBufPtr s) (IdText s) (IdHashTab s) (IdCount s).
Definition set_OperatorPrecedence (v : Z) (s : lexst) : lexst := mklx (InBuf s) (InBufPtr s) (File s) (Sched s) (CurChar s) (Line s) (TokenType s) (TokenNumVal s) (TokenStrLit s) v (IdBufPtr s) (IdText s) (IdHashTab s) (IdCount s).
Definition set_IdBufPtr (v : Z) (s : lexst) : lexst := mklx (InBuf s) (InBufPtr s) (File s) (Sched s) (CurChar s) (Line s) (TokenType s) (TokenNumVal s) (TokenStrLit s) (OperatorPrecedence s) v (IdText s) (IdHashTab s) (IdCount s).
Definition set_IdText (v : arr (list Z)) (s : lexst) : lexst := mklx (InBuf s) (InBufPtr s) (File s) (Sched s) (CurChar s) (Line s) (TokenType s) (TokenNumVal s) (TokenStrLit s) (OperatorPrecedence s) (IdBufPtr s) v (IdHashTab s) (IdCount s).
Definition set_IdHashTab (v : arr Z) (s : lexst) : lexst := mklx (InBuf s) (InBufPtr s) (File s) (Sched s) (CurChar s) (Line s) (TokenType s) (TokenNumVal s) (TokenStrLit s) (OperatorPrecedence s) (IdBufPtr s) (IdText s) v (IdCount s).
Definition set_IdCount (v : Z) (s : lexst) : lexst := mklx (InBuf s) (InBufPtr s) (File s) (Sched s) (CurChar s) (Line s) (TokenType s) (TokenNumVal s) (TokenStrLit s) (OperatorPrecedence s) (IdBufPtr s) (IdText s) (IdHashTab s) v.

Record dcst : Type := mkdc {
  SMId : arr Z; (* StructMembers[].Id, scc.c:370, 308-313 *)
  SMType : arr Z; (* StructMembers[].Type *)
  SMExtra : arr Z; (* StructMembers[].TypeExtra *)
  SMNext : arr Z; (* StructMembers[].Next *)
  StructMemCount : Z; (* scc.c:371 *)
  SDId : arr Z; (* StructDecls[].Id, scc.c:373, 319-322 *)
  SDMembers : arr Z; (* StructDecls[].Members *)
  StructCount : Z; (* scc.c:374 *)
  ADBound : arr Z; (* ArrayDecls[].Bound, scc.c:376, 324-328 *)
  ADType : arr Z; (* ArrayDecls[].Type *)
  ADExtra : arr Z; (* ArrayDecls[].TypeExtra *)
  ArrayCount : Z; (* scc.c:377 *)
  VId : arr Z; (* VarDecls[].Id, scc.c:379, 330-337 *)
  VType : arr Z; (* VarDecls[].Type *)
  VExtra : arr Z; (* VarDecls[].TypeExtra *)
  VPrev : arr Z; (* VarDecls[].Prev *)
  VarLookup : arr Z; (* scc.c:380 *)
  IgnoreRedef : Z; (* scc.c:381 *)
  Scopes : arr Z; (* scc.c:383 *)
  ScopeCount : Z; (* scc.c:384 *)
  NLId : arr Z; (* NamedLabels[].Id, scc.c:389, 303-306 *)
  NLLabel : arr Z; (* NamedLabels[].LabelId *)
  NamedLabelCount : Z; (* scc.c:390 *)
  ArgId : arr Z; (* Args[].Id, scc.c:392, 339-343 *)
  ArgType : arr Z; (* Args[].Type *)
  ArgExtra : arr Z; (* Args[].TypeExtra *)
  ArgsCount : Z; (* scc.c:393 *)
  BStackLevel : Z; (* scc.c:397 *)
  CStackLevel : Z; (* scc.c:398 *)
  ReturnLabel : Z; (* scc.c:399 *)
  BreakLabel : Z; (* scc.c:400 *)
  ContinueLabel : Z; (* scc.c:401 *)
  BaseType : Z; (* scc.c:409 *)
  BaseTypeExtra : Z; (* scc.c:410 *)
  NextSwitchCase : Z; (* scc.c:419 *)
  NextSwitchStmt : Z; (* scc.c:420 *)
  SwitchDefault : Z; (* scc.c:421 *)
  BssSize : Z; (* scc.c:346 *)
  MapOut : list Z; (* bytes written to MapFile, last first, scc.c:348 *)
}.
Definition set_SMId (v : arr Z) (s : dcst) : dcst := mkdc v (SMType s) (SMExtra s) (SMNext s) (StructMemCount s) (SDId s) (SDMembers s) (StructCount s) (ADBound s) (ADType s) (ADExtra s) (ArrayCount s) (VId s) (VType s) (VExtra s) (VPrev s) (VarLookup s) (IgnoreRedef s) (Scopes s) (ScopeCount s) (NLId s) (NLLabel s) (NamedLabelCount s) (ArgId s) (ArgType s) (ArgExtra s) (ArgsCount s) (BStackLevel s) (CStackLevel s) (ReturnLabel s) (BreakLabel s) (ContinueLabel s) (BaseType s) (BaseTypeExtra s) (NextSwitchCase s) (NextSwitchStmt s) (SwitchDefault s) (BssSize s) (MapOut s).
Definition set_SMType (v : arr Z) (s : dcst) : dcst := mkdc (SMId s) v (SMExtra s) (SMNext s) (StructMemCount s) (SDId s) (SDMembers s) (StructCount s) (ADBound s) (ADType s) (ADExtra s) (ArrayCount s) (VId s) (VType s) (VExtra s) (VPrev s) (VarLookup s) (IgnoreRedef s) (Scopes s) (ScopeCount s) (NLId s) (NLLabel s) (NamedLabelCount s) (ArgId s) (ArgType s) (ArgExtra s) (ArgsCount s) (BStackLevel s) (CStackLevel s) (ReturnLabel s) (BreakLabel s) (ContinueLabel s) (BaseType s) (BaseTypeExtra s) (NextSwitchCase s) (NextSwitchStmt s) (SwitchDefault s) (BssSize s) (MapOut s).
Definition set_SMExtra (v : arr Z) (s : dcst) : dcst := mkdc (SMId s) (SMType s) v (SMNext s) (StructMemCount s) (SDId s) (SDMembers s) (StructCount s) (ADBound s) (ADType s) (ADExtra s) (ArrayCount s) (VId s) (VType s) (VExtra s) (VPrev s) (VarLookup s) (IgnoreRedef s) (Scopes s) (ScopeCount s) (NLId s) (NLLabel s) (NamedLabelCount s) (ArgId s) (ArgType s) (ArgExtra s) (ArgsCount s) (BStackLevel s) (CStackLevel s) (ReturnLabel s) (BreakLabel s) (ContinueLabel s) (BaseType s) (BaseTypeExtra s) (NextSwitchCase s) (NextSwitchStmt s) (SwitchDefault s) (BssSize s) (MapOut s).
Definition set_SMNext (v : arr Z) (s : dcst) : dcst := mkdc (SMId s) (SMType s) (SMExtra s) v (StructMemCount s) (SDId s) (SDMembers s) (StructCount s) (ADBound s) (ADType s) (ADExtra s) (ArrayCount s) (VId s) (VType s) (VExtra s) (VPrev s) (VarLookup s) (IgnoreRedef s) (Scopes s) (ScopeCount s) (NLId s) (NLLabel s) (NamedLabelCount s) (ArgId s) (ArgType s) (ArgExtra s) (ArgsCount s) (BStackLevel s) (CStackLevel s) (ReturnLabel s) (BreakLabel s) (ContinueLabel s) (BaseType s) (BaseTypeExtra s) (NextSwitchCase s) (NextSwitchStmt s) (SwitchDefault s) (BssSize s) (MapOut s).
Definition set_StructMemCount (v : Z) (s : dcst) : dcst := mkdc (SMId s) (SMType s) (SMExtra s) (SMNext s) v (SDId s) (SDMembers s) (StructCount s) (ADBound s) (ADType s) (ADExtra s) (ArrayCount s) (VId s) (VType s) (VExtra s) (VPrev s) (VarLookup s) (IgnoreRedef s) (Scopes s) (ScopeCount s) (NLId s) (NLLabel s) (NamedLabelCount s) (ArgId s) (ArgType s) (ArgExtra s) (ArgsCount s) (BStackLevel s) (CStackLevel s) (ReturnLabel s) (BreakLabel s) (ContinueLabel s) (BaseType s) (BaseTypeExtra s) (NextSwitchCase s) (NextSwitchStmt s) (SwitchDefault s) (BssSize s) (MapOut s).
Definition set_SDId (v : arr Z) (s : dcst) : dcst := mkdc (SMId s) (SMType s) (SMExtra s) (SMNext s) (StructMemCount s) v (SDMembers s) (StructCount s) (ADBound s) (ADType s) (ADExtra s) (ArrayCount s) (VId s) (VType s) (VExtra s) (VPrev s) (VarLookup s) (IgnoreRedef s) (Scopes s) (ScopeCount s) (NLId s) (NLLabel s) (NamedLabelCount s) (ArgId s) (ArgType s) (ArgExtra s) (ArgsCount s) (BStackLevel s) (CStackLevel s) (ReturnLabel s) (BreakLabel s) (ContinueLabel s) (BaseType s) (BaseTypeExtra s) (NextSwitchCase s) (NextSwitchStmt s) (SwitchDefault s) (BssSize s) (MapOut s).
Definition set_SDMembers (v : arr Z) (s : dcst) : dcst := mkdc (SMId s) (SMType s) (SMExtra s) (SMNext s) (StructMemCount s) (SDId s) v (StructCount s) (ADBound s) (ADType s) (ADExtra s) (ArrayCount s) (VId s) (VType s) (VExtra s) (VPrev s) (VarLookup s) (IgnoreRedef s) (Scopes s) (ScopeCount s) (NLId s) (NLLabel s) (NamedLabelCount s) (ArgId s) (ArgType s) (ArgExtra s) (ArgsCount s) (BStackLevel s) (CStackLevel s) (ReturnLabel s) (BreakLabel s) (ContinueLabel s) (BaseType s) (BaseTypeExtra s) (NextSwitchCase s) (NextSwitchStmt s) (SwitchDefault s) (BssSize s) (MapOut s).
Definition set_StructCount (v : Z) (s : dcst) : dcst := mkdc (SMId s) (SMType s) (SMExtra s) (SMNext s) (StructMemCount s) (SDId s) (SDMembers s) v (ADBound s) (ADType s) (ADExtra s) (ArrayCount s) (VId s) (VType s) (VExtra s) (VPrev s) (VarLookup s) (IgnoreRedef s) (Scopes s) (ScopeCount s) (NLId s) (NLLabel s) (NamedLabelCount s) (ArgId s) (ArgType s) (ArgExtra s) (ArgsCount s) (BStackLevel s) (CStackLevel s) (ReturnLabel s) (BreakLabel s) (ContinueLabel s) (BaseType s) (BaseTypeExtra s) (NextSwitchCase s) (NextSwitchStmt s) (SwitchDefault s) (BssSize s) (MapOut s).
Definition set_ADBound (v : arr Z) (s : dcst) : dcst := mkdc (SMId s) (SMType s) (SMExtra s) (SMNext s) (StructMemCount s) (SDId s) (SDMembers s) (StructCount s) v (ADType s) (ADExtra s) (ArrayCount s) (VId s) (VType s) (VExtra s) (VPrev s) (VarLookup s) (IgnoreRedef s) (Scopes s) (ScopeCount s) (NLId s) (NLLabel s) (NamedLabelCount s) (ArgId s) (ArgType s) (ArgExtra s) (ArgsCount s) (BStackLevel s) (CStackLevel s) (ReturnLabel s) (BreakLabel s) (ContinueLabel s) (BaseType s) (BaseTypeExtra s) (NextSwitchCase s) (NextSwitchStmt s) (SwitchDefault s) (BssSize s) (MapOut s).
Definition set_ADType (v : arr Z) (s : dcst) : dcst := mkdc (SMId s) (SMType s) (SMExtra s) (SMNext s) (StructMemCount s) (SDId s) (SDMembers s) (StructCount s) (ADBound s) v (ADExtra s) (ArrayCount s) (VId s) (VType s) (VExtra s) (VPrev s) (VarLookup s) (IgnoreRedef s) (Scopes s) (ScopeCount s) (NLId s) (NLLabel s) (NamedLabelCount s) (ArgId s) (ArgType s) (ArgExtra s) (ArgsCount s) (BStackLevel s) (CStackLevel s) (ReturnLabel s) (BreakLabel s) (ContinueLabel s) (BaseType s) (BaseTypeExtra s) (NextSwitchCase s) (NextSwitchStmt s) (SwitchDefault s) (BssSize s) (MapOut s).
Definition set_ADExtra (v : arr Z) (s : dcst) : dcst := mkdc (SMId s) (SMType s) (SMExtra s) (SMNext s) (StructMemCount s) (SDId s) (SDMembers s) (StructCount s) (ADBound s) (ADType s) v (ArrayCount s) (VId s) (VType s) (VExtra s) (VPrev s) (VarLookup s) (IgnoreRedef s) (Scopes s) (ScopeCount s) (NLId s) (NLLabel s) (NamedLabelCount s) (ArgId s) (ArgType s) (ArgExtra s) (ArgsCount s) (BStackLevel s) (CStackLevel s) (ReturnLabel s) (BreakLabel s) (ContinueLabel s) (BaseType s) (BaseTypeExtra s) (NextSwitchCase s) (NextSwitchStmt s) (SwitchDefault s) (BssSize s) (MapOut s).
Definition set_ArrayCount (v : Z) (s : dcst) : dcst := mkdc (SMId s) (SMType s) (SMExtra s) (SMNext s) (StructMemCount s) (SDId s) (SDMembers s) (StructCount s) (ADBound s) (ADType s) (ADExtra s) v (VId s) (VType s) (VExtra s) (VPrev s) (VarLookup s) (IgnoreRedef s) (Scopes s) (ScopeCount s) (NLId s) (NLLabel s) (NamedLabelCount s) (ArgId s) (ArgType s) (ArgExtra s) (ArgsCount s) (BStackLevel s) (CStackLevel s) (ReturnLabel s) (BreakLabel s) (ContinueLabel s) (BaseType s) (BaseTypeExtra s) (NextSwitchCase s) (NextSwitchStmt s) (SwitchDefault s) (BssSize s) (MapOut s).
Definition set_VId (v : arr Z) (s : dcst) : dcst := mkdc (SMId s) (SMType s) (SMExtra s) (SMNext s) (StructMemCount s) (SDId s) (SDMembers s) (StructCount s) (ADBound s) (ADType s) (ADExtra s) (ArrayCount s) v (VType s) (VExtra s) (VPrev s) (VarLookup s) (IgnoreRedef s) (Scopes s) (ScopeCount s) (NLId s) (NLLabel s) (NamedLabelCount s) (ArgId s) (ArgType s) (ArgExtra s) (ArgsCount s) (BStackLevel s) (CStackLevel s) (ReturnLabel s) (BreakLabel s) (ContinueLabel s) (BaseType s) (BaseTypeExtra s) (NextSwitchCase s) (NextSwitchStmt s) (SwitchDefault s) (BssSize s) (MapOut s).
Definition set_VType (v : arr Z) (s : dcst) : dcst := mkdc (SMId s) (SMType s) (SMExtra s) (SMNext s) (StructMemCount s) (SDId s) (SDMembers s) (StructCount s) (ADBound s) (ADType s) (ADExtra s) (ArrayCount s) (VId s) v (VExtra s) (VPrev s) (VarLookup s) (IgnoreRedef s) (Scopes s) (ScopeCount s) (NLId s) (NLLabel s) (NamedLabelCount s) (ArgId s) (ArgType s) (ArgExtra s) (ArgsCount s) (BStackLevel s) (CStackLevel s) (ReturnLabel s) (BreakLabel s) (ContinueLabel s) (BaseType s) (BaseTypeExtra s) (NextSwitchCase s) (NextSwitchStmt s) (SwitchDefault s) (BssSize s) (MapOut s).
Definition set_VExtra (v : arr Z) (s : dcst) : dcst := mkdc (SMId s) (SMType s) (SMExtra s) (SMNext s) (StructMemCount s) (SDId s) (SDMembers s) (StructCount s) (ADBound s) (ADType s) (ADExtra s) (ArrayCount s) (VId s) (VType s) v (VPrev s) (VarLookup s) (IgnoreRedef s) (Scopes s) (ScopeCount s) (NLId s) (NLLabel s) (NamedLabelCount s) (ArgId s) (ArgType s) (ArgExtra s) (ArgsCount s) (BStackLevel s) (CStackLevel s) (ReturnLabel s) (BreakLabel s) (ContinueLabel s) (BaseType s) (BaseTypeExtra s) (NextSwitchCase s) (NextSwitchStmt s) (SwitchDefault s) (BssSize s) (MapOut s).
Definition set_VPrev (v : arr Z) (s : dcst) : dcst := mkdc (SMId s) (SMType s) (SMExtra s) (SMNext s) (StructMemCount s) (SDId s) (SDMembers s) (StructCount s) (ADBound s) (ADType s) (ADExtra s) (ArrayCount s) (VId s) (VType s) (VExtra s) v (VarLookup s) (IgnoreRedef s) (Scopes s) (ScopeCount s) (NLId s) (NLLabel s) (NamedLabelCount s) (ArgId s) (ArgType s) (ArgExtra s) (ArgsCount s) (BStackLevel s) (CStackLevel s) (ReturnLabel s) (BreakLabel s) (ContinueLabel s) (BaseType s) (BaseTypeExtra s) (NextSwitchCase s) (NextSwitchStmt s) (SwitchDefault s) (BssSize s) (MapOut s).
Definition set_VarLookup (v : arr Z) (s : dcst) : dcst := mkdc (SMId s) (SMType s) (SMExtra s) (SMNext s) (StructMemCount s) (SDId s) (SDMembers s) (StructCount s) (ADBound s) (ADType s) (ADExtra s) (ArrayCount s) (VId s) (VType s) (VExtra s) (VPrev s) v (IgnoreRedef s) (Scopes s) (ScopeCount s) (NLId s) (NLLabel s) (NamedLabelCount s) (ArgId s) (ArgType s) (ArgExtra s) (ArgsCount s) (BStackLevel s) (CStackLevel s) (ReturnLabel s) (BreakLabel s) (ContinueLabel s) (BaseType s) (BaseTypeExtra s) (NextSwitchCase s) (NextSwitchStmt s) (SwitchDefault s) (BssSize s) (MapOut s).
Definition set_IgnoreRedef (v : Z) (s : dcst) : dcst := mkdc (SMId s) (SMType s) (SMExtra s) (SMNext s) (StructMemCount s) (SDId s) (SDMembers s) (StructCount s) (ADBound s) (ADType s) (ADExtra s) (ArrayCount s) (VId s) (VType s) (VExtra s) (VPrev s) (VarLookup s) v (Scopes s) (ScopeCount s) (NLId s) (NLLabel s) (NamedLabelCount s) (ArgId s) (ArgType s) (ArgExtra s) (ArgsCount s) (BStackLevel s) (CStackLevel s) (ReturnLabel s) (BreakLabel s) (ContinueLabel s) (BaseType s) (BaseTypeExtra s) (NextSwitchCase s) (NextSwitchStmt s) (SwitchDefault s) (BssSize s) (MapOut s).
Definition set_Scopes (v : arr Z) (s : dcst) : dcst := mkdc (SMId s) (SMType s) (SMExtra s) (SMNext s) (StructMemCount s) (SDId s) (SDMembers s) (StructCount s) (ADBound s) (ADType s) (ADExtra s) (ArrayCount s) (VId s) (VType s) (VExtra s) (VPrev s) (VarLookup s) (IgnoreRedef s) v (ScopeCount s) (NLId s) (NLLabel s) (NamedLabelCount s) (ArgId s) (ArgType s) (ArgExtra s) (ArgsCount s) (BStackLevel s) (CStackLevel s) (ReturnLabel s) (BreakLabel s) (ContinueLabel s) (BaseType s) (BaseTypeExtra s) (NextSwitchCase s) (NextSwitchStmt s) (SwitchDefault s) (BssSize s) (MapOut s).
Definition set_ScopeCount (v : Z) (s : dcst) : dcst := mkdc (SMId s) (SMType s) (SMExtra s) (SMNext s) (StructMemCount s) (SDId s) (SDMembers s) (StructCount s) (ADBound s) (ADType s) (ADExtra s) (ArrayCount s) (VId s) (VType s) (VExtra s) (VPrev s) (VarLookup s) (IgnoreRedef s) (Scopes s) v (NLId s) (NLLabel s) (NamedLabelCount s) (ArgId s) (ArgType s) (ArgExtra s) (ArgsCount s) (BStackLevel s) (CStackLevel s) (ReturnLabel s) (BreakLabel s) (ContinueLabel s) (BaseType s) (BaseTypeExtra s) (NextSwitchCase s) (NextSwitchStmt s) (SwitchDefault s) (BssSize s) (MapOut s).
Definition set_NLId (v : arr Z) (s : dcst) : dcst := mkdc (SMId s) (SMType s) (SMExtra s) (SMNext s) (StructMemCount s) (SDId s) (SDMembers s) (StructCount s) (ADBound s) (ADType s) (ADExtra s) (ArrayCount s) (VId s) (VType s) (VExtra s) (VPrev s) (VarLookup s) (IgnoreRedef s) (Scopes s) (ScopeCount s) v (NLLabel s) (NamedLabelCount s) (ArgId s) (ArgType s) (ArgExtra s) (ArgsCount s) (BStackLevel s) (CStackLevel s) (ReturnLabel s) (BreakLabel s) (ContinueLabel s) (BaseType s) (BaseTypeExtra s) (NextSwitchCase s) (NextSwitchStmt s) (SwitchDefault s) (BssSize s) (MapOut s).
Definition set_NLLabel (v : arr Z) (s : dcst) : dcst := mkdc (SMId s) (SMType s) (SMExtra s) (SMNext s) (StructMemCount s) (SDId s) (SDMembers s) (StructCount s) (ADBound s) (ADType s) (ADExtra s) (ArrayCount s) (VId s) (VType s) (VExtra s) (VPrev s) (VarLookup s) (IgnoreRedef s) (Scopes s) (ScopeCount s) (NLId s) v (NamedLabelCount s) (ArgId s) (ArgType s) (ArgExtra s) (ArgsCount s) (BStackLevel s) (CStackLevel s) (ReturnLabel s) (BreakLabel s) (ContinueLabel s) (BaseType s) (BaseTypeExtra s) (NextSwitchCase s) (NextSwitchStmt s) (SwitchDefault s) (BssSize s) (MapOut s).
Definition set_NamedLabelCount (v : Z) (s : dcst) : dcst := mkdc (SMId s) (SMType s) (SMExtra s) (SMNext s) (StructMemCount s) (SDId s) (SDMembers s) (StructCount s) (ADBound s) (ADType s) (ADExtra s) (ArrayCount s) (VId s) (VType s) (VExtra s) (VPrev s) (VarLookup s) (IgnoreRedef s) (Scopes s) (ScopeCount s) (NLId s) (NLLabel s) v (ArgId s) (ArgType s) (ArgExtra s) (ArgsCount s) (BStackLevel s) (CStackLevel s) (ReturnLabel s) (BreakLabel s) (ContinueLabel s) (BaseType s) (BaseTypeExtra s) (NextSwitchCase s) (NextSwitchStmt s) (SwitchDefault s) (BssSize s) (MapOut s).
Definition set_ArgId (v : arr Z) (s : dcst) : dcst := mkdc (SMId s) (SMType s) (SMExtra s) (SMNext s) (StructMemCount s) (SDId s) (SDMembers s) (StructCount s) (ADBound s) (ADType s) (ADExtra s) (ArrayCount s) (VId s) (VType s) (VExtra s) (VPrev s) (VarLookup s) (IgnoreRedef s) (Scopes s) (ScopeCount s) (NLId s) (NLLabel s) (NamedLabelCount s) v (ArgType s) (ArgExtra s) (ArgsCount s) (BStackLevel s) (CStackLevel s) (ReturnLabel s) (BreakLabel s) (ContinueLabel s) (BaseType s) (BaseTypeExtra s) (NextSwitchCase s) (NextSwitchStmt s) (SwitchDefault s) (BssSize s) (MapOut s).
Definition set_ArgType (v : arr Z) (s : dcst) : dcst := mkdc (SMId s) (SMType s) (SMExtra s) (SMNext s) (StructMemCount s) (SDId s) (SDMembers s) (StructCount s) (ADBound s) (ADType s) (ADExtra s) (ArrayCount s) (VId s) (VType s) (VExtra s) (VPrev s) (VarLookup s) (IgnoreRedef s) (Scopes s) (ScopeCount s) (NLId s) (NLLabel s) (NamedLabelCount s) (ArgId s) v (ArgExtra s) (ArgsCount s) (BStackLevel s) (CStackLevel s) (ReturnLabel s) (BreakLabel s) (ContinueLabel s) (BaseType s) (BaseTypeExtra s) (NextSwitchCase s) (NextSwitchStmt s) (SwitchDefault s) (BssSize s) (MapOut s).
Definition set_ArgExtra (v : arr Z) (s : dcst) : dcst := mkdc (SMId s) (SMType s) (SMExtra s) (SMNext s) (StructMemCount s) (SDId s) (SDMembers s) (StructCount s) (ADBound s) (ADType s) (ADExtra s) (ArrayCount s) (VId s) (VType s) (VExtra s) (VPrev s) (VarLookup s) (IgnoreRedef s) (Scopes s) (ScopeCount s) (NLId s) (NLLabel s) (NamedLabelCount s) (ArgId s) (ArgType s) v (ArgsCount s) (BStackLevel s) (CStackLevel s) (ReturnLabel s) (BreakLabel s) (ContinueLabel s) (BaseType s) (BaseTypeExtra s) (NextSwitchCase s) (NextSwitchStmt s) (SwitchDefault s) (BssSize s) (MapOut s).
Definition set_ArgsCount (v : Z) (s : dcst) : dcst := mkdc (SMId s) (SMType s) (SMExtra s) (SMNext s) (StructMemCount s) (SDId s) (SDMembers s) (StructCount s) (ADBound s) (ADType s) (ADExtra s) (ArrayCount s) (VId s) (VType s) (VExtra s) (VPrev s) (VarLookup s) (IgnoreRedef s) (Scopes s) (ScopeCount s) (NLId s) (NLLabel s) (NamedLabelCount s) (ArgId s) (ArgType s) (ArgExtra s) v (BStackLevel s) (CStackLevel s) (ReturnLabel s) (BreakLabel s) (ContinueLabel s) (BaseType s) (BaseTypeExtra s) (NextSwitchCase s) (NextSwitchStmt s) (SwitchDefault s) (BssSize s) (MapOut s).
Definition set_BStackLevel (v : Z) (s : dcst) : dcst := mkdc (SMId s) (SMType s) (SMExtra s) (SMNext s) (StructMemCount s) (SDId s) (SDMembers s) (StructCount s) (ADBound s) (ADType s) (ADExtra s) (ArrayCount s) (VId s) (VType s) (VExtra s) (VPrev s) (VarLookup s) (IgnoreRedef s) (Scopes s) (ScopeCount s) (NLId s) (NLLabel s) (NamedLabelCount s) (ArgId s) (ArgType s) (ArgExtra s) (ArgsCount s) v (CStackLevel s) (ReturnLabel s) (BreakLabel s) (ContinueLabel s) (BaseType s) (BaseTypeExtra s) (NextSwitchCase s) (NextSwitchStmt s) (SwitchDefault s) (BssSize s) (MapOut s).
Definition set_CStackLevel (v : Z) (s : dcst) : dcst := mkdc (SMId s) (SMType s) (SMExtra s) (SMNext s) (StructMemCount s) (SDId s) (SDMembers s) (StructCount s) (ADBound s) (ADType s) (ADExtra s) (ArrayCount s) (VId s) (VType s) (VExtra s) (VPrev s) (VarLookup s) (IgnoreRedef s) (Scopes s) (ScopeCount s) (NLId s) (NLLabel s) (NamedLabelCount s) (ArgId s) (ArgType s) (ArgExtra s) (ArgsCount s) (BStackLevel s) v (ReturnLabel s) (BreakLabel s) (ContinueLabel s) (BaseType s) (BaseTypeExtra s) (NextSwitchCase s) (NextSwitchStmt s) (SwitchDefault s) (BssSize s) (MapOut s).
Definition set_ReturnLabel (v : Z) (s : dcst) : dcst := mkdc (SMId s) (SMType s) (SMExtra s) (SMNext s) (StructMemCount s) (SDId s) (SDMembers s) (StructCount s) (ADBound s) (ADType s) (ADExtra s) (ArrayCount s) (VId s) (VType s) (VExtra s) (VPrev s) (VarLookup s) (IgnoreRedef s) (Scopes s) (ScopeCount s) (NLId s) (NLLabel s) (NamedLabelCount s) (ArgId s) (ArgType s) (ArgExtra s) (ArgsCount s) (BStackLevel s) (CStackLevel s) v (BreakLabel s) (ContinueLabel s) (BaseType s) (BaseTypeExtra s) (NextSwitchCase s) (NextSwitchStmt s) (SwitchDefault s) (BssSize s) (MapOut s).
Definition set_BreakLabel (v : Z) (s : dcst) : dcst := mkdc (SMId s) (SMType s) (SMExtra s) (SMNext s) (StructMemCount s) (SDId s) (SDMembers s) (StructCount s) (ADBound s) (ADType s) (ADExtra s) (ArrayCount s) (VId s) (VType s) (VExtra s) (VPrev s) (VarLookup s) (IgnoreRedef s) (Scopes s) (ScopeCount s) (NLId s) (NLLabel s) (NamedLabelCount s) (ArgId s) (ArgType s) (ArgExtra s) (ArgsCount s) (BStackLevel s) (CStackLevel s) (ReturnLabel s) v (ContinueLabel s) (BaseType s) (BaseTypeExtra s) (NextSwitchCase s) (NextSwitchStmt s) (SwitchDefault s) (BssSize s) (MapOut s).
Definition set_ContinueLabel (v : Z) (s : dcst) : dcst := mkdc (SMId s) (SMType s) (SMExtra s) (SMNext s) (StructMemCount s) (SDId s) (SDMembers s) (StructCount s) (ADBound s) (ADType s) (ADExtra s) (ArrayCount s) (VId s) (VType s) (VExtra s) (VPrev s) (VarLookup s) (IgnoreRedef s) (Scopes s) (ScopeCount s) (NLId s) (NLLabel s) (NamedLabelCount s) (ArgId s) (ArgType s) (ArgExtra s) (ArgsCount s) (BStackLevel s) (CStackLevel s) (ReturnLabel s) (BreakLabel s) v (BaseType s) (BaseTypeExtra s) (NextSwitchCase s) (NextSwitchStmt s) (SwitchDefault s) (BssSize s) (MapOut s).
Definition set_BaseType (v : Z) (s : dcst) : dcst := mkdc (SMId s) (SMType s) (SMExtra s) (SMNext s) (StructMemCount s) (SDId s) (SDMembers s) (StructCount s) (ADBound s) (ADType s) (ADExtra s) (ArrayCount s) (VId s) (VType s) (VExtra s) (VPrev s) (VarLookup s) (IgnoreRedef s) (Scopes s) (ScopeCount s) (NLId s) (NLLabel s) (NamedLabelCount s) (ArgId s) (ArgType s) (ArgExtra s) (ArgsCount s) (BStackLevel s) (CStackLevel s) (ReturnLabel s) (BreakLabel s) (ContinueLabel s) v (BaseTypeExtra s) (NextSwitchCase s) (NextSwitchStmt s) (SwitchDefault s) (BssSize s) (MapOut s).
Definition set_BaseTypeExtra (v : Z) (s : dcst) : dcst := mkdc (SMId s) (SMType s) (SMExtra s) (SMNext s) (StructMemCount s) (SDId s) (SDMembers s) (StructCount s) (ADBound s) (ADType s) (ADExtra s) (ArrayCount s) (VId s) (VType s) (VExtra s) (VPrev s) (VarLookup s) (IgnoreRedef s) (Scopes s) (ScopeCount s) (NLId s) (NLLabel s) (NamedLabelCount s) (ArgId s) (ArgType s) (ArgExtra s) (ArgsCount s) (BStackLevel s) (CStackLevel s) (ReturnLabel s) (BreakLabel s) (ContinueLabel s) (BaseType s) v (NextSwitchCase s) (NextSwitchStmt s) (SwitchDefault s) (BssSize s) (MapOut s).
Definition set_NextSwitchCase (v : Z) (s : dcst) : dcst := mkdc (SMId s) (SMType s) (SMExtra s) (SMNext s) (StructMemCount s) (SDId s) (SDMembers s) (StructCount s) (ADBound s) (ADType s) (ADExtra s) (ArrayCount s) (VId s) (VType s) (VExtra s) (VPrev s) (VarLookup s) (IgnoreRedef s) (Scopes s) (ScopeCount s) (NLId s) (NLLabel s) (NamedLabelCount s) (ArgId s) (ArgType s) (ArgExtra s) (ArgsCount s) (BStackLevel s) (CStackLevel s) (ReturnLabel s) (BreakLabel s) (ContinueLabel s) (BaseType s) (BaseTypeExtra s) v (NextSwitchStmt s) (SwitchDefault s) (BssSize s) (MapOut s).
Definition set_NextSwitchStmt (v : Z) (s : dcst) : dcst := mkdc (SMId s) (SMType s) (SMExtra s) (SMNext s) (StructMemCount s) (SDId s) (SDMembers s) (StructCount s) (ADBound s) (ADType s) (ADExtra s) (ArrayCount s) (VId s) (VType s) (VExtra s) (VPrev s) (VarLookup s) (IgnoreRedef s) (Scopes s) (ScopeCount s) (NLId s) (NLLabel s) (NamedLabelCount s) (ArgId s) (ArgType s) (ArgExtra s) (ArgsCount s) (BStackLevel s) (CStackLevel s) (ReturnLabel s) (BreakLabel s) (ContinueLabel s) (BaseType s) (BaseTypeExtra s) (NextSwitchCase s) v (SwitchDefault s) (BssSize s) (MapOut s).
Definition set_SwitchDefault (v : Z) (s : dcst) : dcst := mkdc (SMId s) (SMType s) (SMExtra s) (SMNext s) (StructMemCount s) (SDId s) (SDMembers s) (StructCount s) (ADBound s) (ADType s) (ADExtra s) (ArrayCount s) (VId s) (VType s) (VExtra s) (VPrev s) (VarLookup s) (IgnoreRedef s) (Scopes s) (ScopeCount s) (NLId s) (NLLabel s) (NamedLabelCount s) (ArgId s) (ArgType s) (ArgExtra s) (ArgsCount s) (BStackLevel s) (CStackLevel s) (ReturnLabel s) (BreakLabel s) (ContinueLabel s) (BaseType s) (BaseTypeExtra s) (NextSwitchCase s) (NextSwitchStmt s) v (BssSize s) (MapOut s).
Definition set_BssSize (v : Z) (s : dcst) : dcst := mkdc (SMId s) (SMType s) (SMExtra s) (SMNext s) (StructMemCount s) (SDId s) (SDMembers s) (StructCount s) (ADBound s) (ADType s) (ADExtra s) (ArrayCount s) (VId s) (VType s) (VExtra s) (VPrev s) (VarLookup s) (IgnoreRedef s) (Scopes s) (ScopeCount s) (NLId s) (NLLabel s) (NamedLabelCount s) (ArgId s) (ArgType s) (ArgExtra s) (ArgsCount s) (BStackLevel s) (CStackLevel s) (ReturnLabel s) (BreakLabel s) (ContinueLabel s) (BaseType s) (BaseTypeExtra s) (NextSwitchCase s) (NextSwitchStmt s) (SwitchDefault s) v (MapOut s).
Definition set_MapOut (v : list Z) (s : dcst) : dcst := mkdc (SMId s) (SMType s) (SMExtra s) (SMNext s) (StructMemCount s) (SDId s) (SDMembers s) (StructCount s) (ADBound s) (ADType s) (ADExtra s) (ArrayCount s) (VId s) (VType s) (VExtra s) (VPrev s) (VarLookup s) (IgnoreRedef s) (Scopes s) (ScopeCount s) (NLId s) (NLLabel s) (NamedLabelCount s) (ArgId s) (ArgType s) (ArgExtra s) (ArgsCount s) (BStackLevel s) (CStackLevel s) (ReturnLabel s) (BreakLabel s) (ContinueLabel s) (BaseType s) (BaseTypeExtra s) (NextSwitchCase s) (NextSwitchStmt s) (SwitchDefault s) (BssSize s) v.

Record cc : Type := mkcc { lx : lexst; em : emst; dc : dcst }.
Definition set_lx (v : lexst) (s : cc) : cc := mkcc v (em s) (dc s).
Definition set_em (v : emst) (s : cc) : cc := mkcc (lx s) v (dc s).
Definition set_dc (v : dcst) (s : cc) : cc := mkcc (lx s) (em s) v.

(** lifting of the sub-state computations *)
Definition inlx {A} (m : M lexst A) : M cc A := fun s =>
  match m (lx s) with Ok (a, l) => Ok (a, set_lx l s) | Fatal => Fatal | UB => UB | OutOfFuel => OutOfFuel end.
Definition inem {A} (m : M emst A) : M cc A := fun s =>
  match m (em s) with Ok (a, e) => Ok (a, set_em e s) | Fatal => Fatal | UB => UB | OutOfFuel => OutOfFuel end.
Definition indc {A} (m : M dcst A) : M cc A := fun s =>
  match m (dc s) with Ok (a, d) => Ok (a, set_dc d s) | Fatal => Fatal | UB => UB | OutOfFuel => OutOfFuel end.
Definition getl {A} (f : lexst -> A) : M cc A := gets (fun s => f (lx s)).
Definition gete {A} (f : emst -> A) : M cc A := gets (fun s => f (em s)).
Definition getd {A} (f : dcst -> A) : M cc A := gets (fun s => f (dc s)).
Definition updl (f : lexst -> lexst) : M cc unit := upd (fun s => set_lx (f (lx s)) s).
Definition upde (f : emst -> emst) : M cc unit := upd (fun s => set_em (f (em s)) s).
Definition updd (f : dcst -> dcst) : M cc unit := upd (fun s => set_dc (f (dc s)) s).

(** initial values of the globals (static storage: zero unless initialised, scc.c:345-423) *)
Definition em0 : emst :=
  mkem (ainit 0) CODESTART 0 false 0 0 false (ainit 0) (ainit 0) 0 0 0 0 0 false (ainit 0) (ainit 0).
Definition lx0 (file sched : list Z) : lexst :=
  mklx (ainit 0) 0 file sched 0 1 0 0 0 0 0 (ainit nil) (ainit (-1)) 0.
Definition dc0 : dcst :=
  mkdc (ainit 0) (ainit 0) (ainit 0) (ainit 0) 0 (ainit 0) (ainit 0) 0
       (ainit 0) (ainit 0) (ainit 0) 0 (ainit 0) (ainit 0) (ainit 0) (ainit 0)
       (ainit 0) 0 (ainit 0) 1 (ainit 0) (ainit 0) 0 (ainit 0) (ainit 0) (ainit 0) 0
       0 0 0 0 0 0 0 (-1) 0 0 0 nil.
Definition cc0 (file sched : list Z) : cc := mkcc (lx0 file sched) em0 dc0.
