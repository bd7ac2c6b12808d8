(** Built-in code templates: the texts of the MIPS macros, of the constructor functions of imported
    objects and of .msg, and the way values are put into them.

    Modelled: replaceAll (Util/Util.cpp 240-254), the part of Parser::parseTemplate that makes the text
    (Parser/Parser.cpp 197-215), preprocessMacro (Archs/MIPS/MipsMacros.cpp 52-63), and all texts with
    variables given to parseTemplate.  Texts are lists of characters.  Not modelled here: the values, which are
    parameters (texts of expressions and registers, label names), the choice of the text by a macro
    (MipsMacroModel has it), the file and line given to the commands, and the parsing of the result. *)

Require Import ZArith String Ascii List Bool.
Import ListNotations.
Local Open Scope char_scope.
Local Open Scope list_scope.

Definition chars := list ascii.

(** std::string::find, Util/Util.cpp 246: is the searched text at the start of [s]? *)
Fixpoint at_start (old s : chars) : bool :=
  match old, s with
  | [], _ => true
  | c :: o, d :: r => Ascii.eqb c d && at_start o r
  | _ :: _, [] => false
  end.

(** Util/Util.cpp 240-254: the first occurrence from the current position on is replaced, and the search goes
    on behind the inserted text.  [skip] counts the characters of the found text that are still to be
    left out.  An empty searched text, for which the loop would not end, is never used. *)
Fixpoint replace_from (old new : chars) (skip : nat) (s : chars) : chars :=
  match s with
  | [] => []
  | c :: r =>
      match skip with
      | S k => replace_from old new k r
      | O => if at_start old s then new ++ replace_from old new (length old - 1) r else c :: replace_from old new 0 r
      end
  end.
Definition replaceAll (s old new : chars) : chars := replace_from old new 0 s.

(** Parser/Parser.cpp 197-215: one variable after the other over the whole text. *)
Definition parseTemplate (text : chars) (variables : list (chars * chars)) : chars :=
  fold_left (fun s a => replaceAll s (fst a) (snd a)) variables text.

(** Archs/MIPS/MipsMacros.cpp 52-63: the label for the memory position is put before the text. *)
Definition preprocessMacro (label text : chars) : chars := label ++ [":"; " "] ++ text.

(** The names as they are written in the lists of variables. *)
Definition percent (n : chars) : chars := "%" :: n ++ ["%"].

Local Open Scope string_scope.

(** Archs/MIPS/MipsMacros.cpp 73-77; variables in the order of the list in 89-94. *)
Definition templateAbs : string := "
		%sraop% 	r1,%rs%,31
		xor 		%rd%,%rs%,r1
		%subop% 	%rd%,%rd%,r1
	".
Definition templateAbs_vars : list string := ["rd"; "rs"; "sraop"; "subop"].

(** Archs/MIPS/MipsMacros.cpp 99-102; variables in the order of the list in 105-108. *)
Definition templateLiFloat : string := "
		li 		r1,float(%imm%)
		mtc1	r1,%rs%
	".
Definition templateLiFloat_vars : list string := ["imm"; "rs"].

(** Archs/MIPS/MipsMacros.cpp 113-140; variables in the order of the list in 154-159. *)
Definition templateLi : string := "
		.if abs(%imm%) > 0xFFFFFFFF
			.error ""Immediate value too big""
		.elseif %imm% & ~0xFFFF
			.if (%imm% & 0xFFFF8000) == 0xFFFF8000
				.if %lower%
					addiu	%rs%,r0, lo(%imm%)
				.endif
			.elseif (%imm% & 0xFFFF) == 0
				.if %upper%
					lui		%rs%, hi(%imm%)
				.elseif %lower%
					nop
				.endif
			.else
				.if %upper%
					lui		%rs%, hi(%imm%)
				.endif
				.if %lower%
					addiu 	%rs%, lo(%imm%)
				.endif
			.endif
		.else
			.if %lower%
				ori		%rs%,r0,%imm%
			.endif
		.endif
	".
Definition templateLi_vars : list string := ["upper"; "lower"; "rs"; "imm"].

(** Archs/MIPS/MipsMacros.cpp 164-181; variables in the order of the list in 216-223. *)
Definition templateLoadStore : string := "
		.if %imm% & ~0xFFFFFFFF
			.error ""Address too big""
		.elseif %imm% < 0x8000 || (%imm% & 0xFFFF8000) == 0xFFFF8000
			.if %lower%
				%op%	%rs%, lo(%imm%)(r0)
			.elseif %upper%
				nop
			.endif
		.else
			.if %upper%
				lui		%temp%, hi(%imm%)
			.endif
			.if %lower%
				%op%	%rs%, lo(%imm%)(%temp%)
			.endif
		.endif
	".
Definition templateLoadStore_vars : list string := ["upper"; "lower"; "rs"; "temp"; "imm"; "op"].

(** Archs/MIPS/MipsMacros.cpp 234-243; variables in the order of the list in 272-278. *)
Definition templateHalfword : string := "
			.if (%off% < 0x8000) && ((%off%+1) >= 0x8000)
				.error ""Immediate offset too big""
			.else
				%op%	r1,%off%+1(%rs%)
				%op%	%rd%,%off%(%rs%)
				sll		r1,8
				or		%rd%,r1
			.endif
		".
Definition templateHalfword_vars : list string := ["rs"; "rd"; "off"; "op"; "size"].

(** Archs/MIPS/MipsMacros.cpp 249-256; variables in the order of the list in 272-278. *)
Definition templateWord : string := "
			.if (%off% < 0x8000) && ((%off%+%size%-1) >= 0x8000)
				.error ""Immediate offset too big""
			.else
				%op%l	%rd%,%off%+%size%-1(%rs%)
				%op%r	%rd%,%off%(%rs%)
			.endif
		".
Definition templateWord_vars : list string := ["rs"; "rd"; "off"; "op"; "size"].

(** Archs/MIPS/MipsMacros.cpp 289-297; variables in the order of the list in 325-331. *)
Definition templateHalfword2 : string := "
			.if (%off% < 0x8000) && ((%off%+1) >= 0x8000)
				.error ""Immediate offset too big""
			.else
				sb		%rd%,%off%(%rs%)
				srl		r1,%rd%,8
				sb		r1,%off%+1(%rs%)
			.endif
		".
Definition templateHalfword2_vars : list string := ["rs"; "rd"; "off"; "op"; "size"].

(** Archs/MIPS/MipsMacros.cpp 302-309; variables in the order of the list in 325-331. *)
Definition templateWord2 : string := "
			.if (%off% < 0x8000) && ((%off%+%size%-1) >= 0x8000)
				.error ""Immediate offset too big""
			.else
				%op%l	%rd%,%off%+%size%-1(%rs%)
				%op%r	%rd%,%off%(%rs%)
			.endif
		".
Definition templateWord2_vars : list string := ["rs"; "rd"; "off"; "op"; "size"].

(** Archs/MIPS/MipsMacros.cpp 352-359; variables in the order of the list in 409-417. *)
Definition templateNeEq : string := "
			.if %imm% == 0
				%op%	%rs%,r0,%dest%
			.else
				li		r1,%imm%
				%op%	%rs%,r1,%dest%
			.endif
		".
Definition templateNeEq_vars : list string := ["op"; "u"; "revcmp"; "rs"; "rt"; "imm"; "dest"].

(** Archs/MIPS/MipsMacros.cpp 368-381; variables in the order of the list in 409-417. *)
Definition templateImmediate : string := "
			.if %revcmp% && %imm% == 0
				slt%u% 	r1,r0,%rs%
			.elseif %revcmp%
				li		r1,%imm%
				slt%u%	r1,r1,%rs%
			.elseif (%imm% < -0x8000) || (%imm% >= 0x8000)
				li		r1,%imm%
				slt%u%	r1,%rs%,r1
			.else
				slti%u%	r1,%rs%,%imm%
			.endif
			%op%	r1,%dest%
		".
Definition templateImmediate_vars : list string := ["op"; "u"; "revcmp"; "rs"; "rt"; "imm"; "dest"].

(** Archs/MIPS/MipsMacros.cpp 390-397; variables in the order of the list in 409-417. *)
Definition templateRegister : string := "
			.if %revcmp%
				slt%u%	r1,%rt%,%rs%
			.else
				slt%u%	r1,%rs%,%rt%
			.endif
			%op%	r1,%dest%
		".
Definition templateRegister_vars : list string := ["op"; "u"; "revcmp"; "rs"; "rt"; "imm"; "dest"].

(** Archs/MIPS/MipsMacros.cpp 436-448; variables in the order of the list in 501-510. *)
Definition templateImmediateEqNe : string := "
			.if %imm% & ~0xFFFF
				li		%rd%,%imm%
				xor		%rd%,%rs%,%rd%
			.else
				xori	%rd%,%rs%,%imm%
			.endif
			.if %eq%
				sltiu	%rd%,%rd%,1
			.else
				sltu	%rd%,r0,%rd%
			.endif
		".
Definition templateImmediateEqNe_vars : list string := ["u"; "eq"; "ge"; "revcmp"; "rd"; "rs"; "rt"; "imm"].

(** Archs/MIPS/MipsMacros.cpp 453-460; variables in the order of the list in 501-510. *)
Definition templateEqNe : string := "
			xor		%rd%,%rs%,%rt%
			.if %eq%
				sltiu	%rd%,%rd%,1
			.else
				sltu	%rd%,r0,%rd%
			.endif
		".
Definition templateEqNe_vars : list string := ["u"; "eq"; "ge"; "revcmp"; "rd"; "rs"; "rt"; "imm"].

(** Archs/MIPS/MipsMacros.cpp 465-480; variables in the order of the list in 501-510. *)
Definition templateImmediateGeLt : string := "
			.if %revcmp% && %imm% == 0
				slt%u%	%rd%,r0,%rs%
			.elseif %revcmp%
				li		%rd%,%imm%
				slt%u%	%rd%,%rd%,%rs%
			.elseif (%imm% < -0x8000) || (%imm% >= 0x8000)
				li		%rd%,%imm%
				slt%u%	%rd%,%rs%,%rd%
			.else
				slti%u%	%rd%,%rs%,%imm%
			.endif
			.if %ge%
				xori	%rd%,%rd%,1
			.endif
		".
Definition templateImmediateGeLt_vars : list string := ["u"; "eq"; "ge"; "revcmp"; "rd"; "rs"; "rt"; "imm"].

(** Archs/MIPS/MipsMacros.cpp 485-492; variables in the order of the list in 501-510. *)
Definition templateGe : string := "
			.if %revcmp%
				slt%u%	%rd%,%rt%,%rs%
			.else
				slt%u%	%rd%,%rs%,%rt%
			.endif
			xori	%rd%,%rd%,1
		".
Definition templateGe_vars : list string := ["u"; "eq"; "ge"; "revcmp"; "rd"; "rs"; "rt"; "imm"].

(** Archs/MIPS/MipsMacros.cpp 522-532; variables in the order of the list in 582-588. *)
Definition templatePspImmediate : string := "
			.if %amount% != 0
				.if %left%
					rotr	%rd%,%rs%,-%amount%&31
				.else
					rotr	%rd%,%rs%,%amount%
				.endif
			.else
				move	%rd%,%rs%
			.endif
		".
Definition templatePspImmediate_vars : list string := ["left"; "rd"; "rs"; "rt"; "amount"].

(** Archs/MIPS/MipsMacros.cpp 537-544; variables in the order of the list in 582-588. *)
Definition templatePspRegister : string := "
			.if %left%
				negu	r1,%rt%
				rotrv	%rd%,%rs%,r1
			.else
				rotrv	%rd%,%rs%,%rt%
			.endif
		".
Definition templatePspRegister_vars : list string := ["left"; "rd"; "rs"; "rt"; "amount"].

(** Archs/MIPS/MipsMacros.cpp 549-562; variables in the order of the list in 582-588. *)
Definition templateImmediate2 : string := "
			.if %amount% != 0
				.if %left%
					srl	r1,%rs%,-%amount%&31
					sll	%rd%,%rs%,%amount%
				.else
					sll	r1,%rs%,-%amount%&31
					srl	%rd%,%rs%,%amount%
				.endif
				or		%rd%,%rd%,r1
			.else
				move	%rd%,%rs%
			.endif
		".
Definition templateImmediate2_vars : list string := ["left"; "rd"; "rs"; "rt"; "amount"].

(** Archs/MIPS/MipsMacros.cpp 566-576; variables in the order of the list in 582-588. *)
Definition templateRegister2 : string := "
			negu	r1,%rt%
			.if %left%
				srlv	r1,%rs%,r1
				sllv	%rd%,%rs%,%rt%
			.else
				sllv	r1,%rs%,r1
				srlv	%rd%,%rs%,%rt%
			.endif
			or	%rd%,%rd%,r1
		".
Definition templateRegister2_vars : list string := ["left"; "rd"; "rs"; "rt"; "amount"].

(** Archs/MIPS/MipsElfRelocator.cpp 79-109; variables in the order of the list in 125-131. *)
Definition mipsCtorTemplate : string := "
	addiu	sp,-32
	sw		ra,0(sp)
	sw		s0,4(sp)
	sw		s1,8(sp)
	sw		s2,12(sp)
	sw		s3,16(sp)
	li		s0,%ctorTable%
	li		s1,%ctorTable%+%ctorTableSize%
	%outerLoopLabel%:
	lw		s2,(s0)
	lw		s3,4(s0)
	addiu	s0,8
	%innerLoopLabel%:
	lw		a0,(s2)
	jalr	a0
	addiu	s2,4h
	bne		s2,s3,%innerLoopLabel%
	nop
	bne		s0,s1,%outerLoopLabel%
	nop
	lw		ra,0(sp)
	lw		s0,4(sp)
	lw		s1,8(sp)
	lw		s2,12(sp)
	lw		s3,16(sp)
	jr		ra
	addiu	sp,32
	%ctorTable%:
	.word	%ctorContent%
".
Definition mipsCtorTemplate_vars : list string := ["ctorTable"; "ctorTableSize"; "outerLoopLabel"; "innerLoopLabel"; "ctorContent"].

(** Archs/SuperH/ShElfRelocator.cpp 51-82; variables in the order of the list in 98-104. *)
Definition shCtorTemplate : string := "
	mov.l	r8,@-r15
	mov.l	r9,@-r15
	mov.l	r10,@-r15
	mov.l	r11,@-r15
	sts.l	pr,@-r15
	mova	%ctorTable%,r0
	mov		r0,r8
	mova	%ctorTable%+%ctorTableSize%,r0
	mov		r0,r9
	%outerLoopLabel%:
	mov.l	@r8,r10
	mov.l	@(4,r9),r11
	add		#8,r8
	%innerLoopLabel%:
	mov.l	@r10,r4
	jsr		r4
	add		#4,r10
	cmp/eq 	r10,r11
	bf		%innerLoopLabel%
	cmp/eq	r8,r9
	bf		%outerLoopLabel%
	lds.l	@r15+,pr
	mov.l	@r15+,r11
	mov.l	@r15+,r10
	mov.l	@r15+,r9
	rts
	mov.l	@r15+,r8
	.align 4
	%ctorTable%:
	.word	%ctorContent%
".
Definition shCtorTemplate_vars : list string := ["ctorTable"; "ctorTableSize"; "outerLoopLabel"; "innerLoopLabel"; "ctorContent"].

(** Archs/ARM/ArmElfRelocator.cpp 172-203; variables in the order of the list in 221-229. *)
Definition ctorTemplate : string := "
	push	r4-r7,r14
	ldr	r4,=%ctorTable%
	ldr	r5,=%ctorTable%+%ctorTableSize%
	%outerLoopLabel%:
	ldr	r6,[r4]
	ldr	r7,[r4,4]
	add	r4,8
	%innerLoopLabel%:
	ldr	r0,[r6]
	add	r6,4
	.if %simpleMode%
		blx	r0
	.else
		bl	%stubName%
	.endif
	cmp	r6,r7
	blt	%innerLooplabel%
	cmp	r4,r5
	blt	%outerLoopLabel%
	.if %simpleMode%
		pop	r4-r7,r15
	.else
		pop	r4-r7
		pop	r0
		%stubName%:
		bx	r0
	.endif
	.pool
	%ctorTable%:
	.word %ctorContent%""
".
Definition ctorTemplate_vars : list string := ["ctorTable"; "ctorTableSize"; "outerLoopLabel"; "innerLoopLabel"; "stubName"; "simpleMode"; "ctorContent"].

(** Archs/ARM/ArmParser.cpp 69-82; variables in the order of the list in 90-94. *)
Definition msgTemplate : string := "
	mov    r12,r12
	b      %after%
	.byte  0x64,0x64,0x00,0x00
	.if strlen(%text%) > 120
		.error ""Maximum length of No$gba debug message is 120 bytes""
	.elseif strlen(%text%) > 0
		.ascii %text%
	.else
		.byte  0x00
	.endif
	.align %alignment%,0x00
	%after%:
".
Definition msgTemplate_vars : list string := ["after"; "text"; "alignment"].

(** All texts given to Parser::parseTemplate with variables, with the names of the variables. *)
Definition templates : list (string * list string) :=
  [(templateAbs, templateAbs_vars);
   (templateLiFloat, templateLiFloat_vars);
   (templateLi, templateLi_vars);
   (templateLoadStore, templateLoadStore_vars);
   (templateHalfword, templateHalfword_vars);
   (templateWord, templateWord_vars);
   (templateHalfword2, templateHalfword2_vars);
   (templateWord2, templateWord2_vars);
   (templateNeEq, templateNeEq_vars);
   (templateImmediate, templateImmediate_vars);
   (templateRegister, templateRegister_vars);
   (templateImmediateEqNe, templateImmediateEqNe_vars);
   (templateEqNe, templateEqNe_vars);
   (templateImmediateGeLt, templateImmediateGeLt_vars);
   (templateGe, templateGe_vars);
   (templatePspImmediate, templatePspImmediate_vars);
   (templatePspRegister, templatePspRegister_vars);
   (templateImmediate2, templateImmediate2_vars);
   (templateRegister2, templateRegister2_vars);
   (mipsCtorTemplate, mipsCtorTemplate_vars);
   (shCtorTemplate, shCtorTemplate_vars);
   (ctorTemplate, ctorTemplate_vars);
   (msgTemplate, msgTemplate_vars)].
