(** * The assembler blocks of the library.

    Written by tools/gen_blocks.py from /repo/include/boost/atomic/detail, after macro expansion: every asm statement of
    core_arch_ops_gcc_{alpha,arm,ppc,sparc,x86,aarch32,aarch64}.hpp and extra_ops_gcc_{arm,ppc,x86,aarch32,aarch64}.hpp, for
    every branch of the preprocessor conditions inside it and every memory order that changes its text; for values
    of two registers on ARM in both byte orders; for PowerPC also the AIX version of jumps.  Each block cites its file
    and line.  Not included: the Thumb-1 versions of the ARM blocks, which switch to ARM code first. *)
From Coq Require Import ZArith List String.
From Verif Require Import AsmText.
Import ListNotations.
Open Scope string_scope.
Open Scope Z_scope.

Definition l0 := "mb".
Definition l1 := "1:".
Definition l2 := "mov %3, %1".
Definition l3 := "ldl_l %0, %2".
Definition l4 := "stl_c %1, %2".
Definition l5 := "beq %1, 2f".
Definition l6 := ".subsection 2".
Definition l7 := "2: br 1b".
Definition l8 := ".previous".
Definition l9 := "ldl_l %2, %4".
Definition l10 := "cmpeq %2, %0, %3".
Definition l11 := "mov %2, %0".
Definition l12 := "beq %3, 2f".
Definition l13 := "stl_c %1, %4".
Definition l14 := "mov %1, %3".
Definition l15 := "2:".
Definition l16 := "mov %5, %1".
Definition l17 := "beq %1, 3f".
Definition l18 := "3: br 1b".
Definition l19 := "addl %0, %3, %1".
Definition l20 := "subl %0, %3, %1".
Definition l21 := "and %0, %3, %1".
Definition l22 := "bis %0, %3, %1".
Definition l23 := "xor %0, %3, %1".
Definition l24 := "zapnot %1, 1, %1".
Definition l25 := "sextb %1, %1".
Definition l26 := "zapnot %1, 3, %1".
Definition l27 := "sextw %1, %1".
Definition l28 := "ldq_l %0, %2".
Definition l29 := "stq_c %1, %2".
Definition l30 := "ldq_l %2, %4".
Definition l31 := "stq_c %1, %4".
Definition l32 := "addq %0, %3, %1".
Definition l33 := "subq %0, %3, %1".
Definition l34 := "ldrex %[original], %[storage]".
Definition l35 := "strex %[tmp], %[value], %[storage]".
Definition l36 := "teq   %[tmp], #0".
Definition l37 := "bne   1b".
Definition l38 := "ldrex   %[original], %[storage]".
Definition l39 := "cmp     %[original], %[expected]".
Definition l40 := "itt     eq".
Definition l41 := "strexeq %[success], %[desired], %[storage]".
Definition l42 := "eoreq   %[success], %[success], #1".
Definition l43 := "bne     2f".
Definition l44 := "strex   %[success], %[desired], %[storage]".
Definition l45 := "eors    %[success], %[success], #1".
Definition l46 := "beq     1b".
Definition l47 := "add     %[result], %[original], %[value]".
Definition l48 := "strex   %[tmp], %[result], %[storage]".
Definition l49 := "teq     %[tmp], #0".
Definition l50 := "bne     1b".
Definition l51 := "sub     %[result], %[original], %[value]".
Definition l52 := "and     %[result], %[original], %[value]".
Definition l53 := "orr     %[result], %[original], %[value]".
Definition l54 := "eor     %[result], %[original], %[value]".
Definition l55 := "ldrexb %[original], %[storage]".
Definition l56 := "strexb %[tmp], %[value], %[storage]".
Definition l57 := "teq    %[tmp], #0".
Definition l58 := "bne    1b".
Definition l59 := "ldrexb   %[original], %[storage]".
Definition l60 := "cmp      %[original], %[expected]".
Definition l61 := "itt      eq".
Definition l62 := "strexbeq %[success], %[desired], %[storage]".
Definition l63 := "eoreq    %[success], %[success], #1".
Definition l64 := "bne      2f".
Definition l65 := "strexb   %[success], %[desired], %[storage]".
Definition l66 := "eors     %[success], %[success], #1".
Definition l67 := "beq      1b".
Definition l68 := "add      %[result], %[original], %[value]".
Definition l69 := "strexb   %[tmp], %[result], %[storage]".
Definition l70 := "teq      %[tmp], #0".
Definition l71 := "bne      1b".
Definition l72 := "sub      %[result], %[original], %[value]".
Definition l73 := "and      %[result], %[original], %[value]".
Definition l74 := "orr      %[result], %[original], %[value]".
Definition l75 := "eor      %[result], %[original], %[value]".
Definition l76 := "uxtb    %[result], %[result]".
Definition l77 := "sxtb    %[result], %[result]".
Definition l78 := "ldrexh %[original], %[storage]".
Definition l79 := "strexh %[tmp], %[value], %[storage]".
Definition l80 := "ldrexh   %[original], %[storage]".
Definition l81 := "strexheq %[success], %[desired], %[storage]".
Definition l82 := "strexh   %[success], %[desired], %[storage]".
Definition l83 := "strexh   %[tmp], %[result], %[storage]".
Definition l84 := "uxth    %[result], %[result]".
Definition l85 := "sxth    %[result], %[result]".
Definition l86 := "ldrexd %0, %H0, %1".
Definition l87 := "ldrexd %1, %H1, %2".
Definition l88 := "strexd %0, %3, %H3, %2".
Definition l89 := "teq    %0, #0".
Definition l90 := "ldrexd   %1, %H1, %3".
Definition l91 := "cmp      %1, %4".
Definition l92 := "it       eq".
Definition l93 := "cmpeq    %H1, %H4".
Definition l94 := "bne      1f".
Definition l95 := "strexd   %2, %5, %H5, %3".
Definition l96 := "eor      %2, %2, #1".
Definition l97 := "eors     %2, %2, #1".
Definition l98 := "ldrexd  %1, %H1, %3".
Definition l99 := "adds   %2, %1, %4".
Definition l100 := "adc    %H2, %H1, %H4".
Definition l101 := "strexd  %0, %2, %H2, %3".
Definition l102 := "teq     %0, #0".
Definition l103 := "adds   %H2, %H1, %H4".
Definition l104 := "adc    %2, %1, %4".
Definition l105 := "subs   %2, %1, %4".
Definition l106 := "sbc    %H2, %H1, %H4".
Definition l107 := "subs   %H2, %H1, %H4".
Definition l108 := "sbc    %2, %1, %4".
Definition l109 := "and     %2, %1, %4".
Definition l110 := "and     %H2, %H1, %H4".
Definition l111 := "orr     %2, %1, %4".
Definition l112 := "orr     %H2, %H1, %H4".
Definition l113 := "eor     %2, %1, %4".
Definition l114 := "eor     %H2, %H1, %H4".
Definition l115 := "stw %1, %0".
Definition l116 := "sync".
Definition l117 := "lwz %0, %1".
Definition l118 := "cmpw %0, %0".
Definition l119 := "bne- 1f".
Definition l120 := "isync".
Definition l121 := "bne- $+4".
Definition l122 := "lwarx %0,%y1".
Definition l123 := "stwcx. %2,%y1".
Definition l124 := "bne- 1b".
Definition l125 := "bne- $-8".
Definition l126 := "li %1, 0".
Definition l127 := "lwarx %0,%y2".
Definition l128 := "cmpw %0, %3".
Definition l129 := "stwcx. %4,%y2".
Definition l130 := "li %1, 1".
Definition l131 := "bne- $+16".
Definition l132 := "bne- $+8".
Definition l133 := "0:".
Definition l134 := "bne- 0b".
Definition l135 := "bne- $-16".
Definition l136 := "add %1,%0,%3".
Definition l137 := "stwcx. %1,%y2".
Definition l138 := "bne- $-12".
Definition l139 := "sub %1,%0,%3".
Definition l140 := "and %1,%0,%3".
Definition l141 := "or %1,%0,%3".
Definition l142 := "xor %1,%0,%3".
Definition l143 := "stb %1, %0".
Definition l144 := "lbz %0, %1".
Definition l145 := "lbarx %0,%y1".
Definition l146 := "stbcx. %2,%y1".
Definition l147 := "lbarx %0,%y2".
Definition l148 := "stbcx. %4,%y2".
Definition l149 := "stbcx. %1,%y2".
Definition l150 := "rlwinm %1, %1, 0, 0xff".
Definition l151 := "extsb %1, %1".
Definition l152 := "sth %1, %0".
Definition l153 := "lhz %0, %1".
Definition l154 := "lharx %0,%y1".
Definition l155 := "sthcx. %2,%y1".
Definition l156 := "lharx %0,%y2".
Definition l157 := "sthcx. %4,%y2".
Definition l158 := "sthcx. %1,%y2".
Definition l159 := "rlwinm %1, %1, 0, 0xffff".
Definition l160 := "extsh %1, %1".
Definition l161 := "std %1, %0".
Definition l162 := "ld %0, %1".
Definition l163 := "cmpd %0, %0".
Definition l164 := "ldarx %0,%y1".
Definition l165 := "stdcx. %2,%y1".
Definition l166 := "ldarx %0,%y2".
Definition l167 := "cmpd %0, %3".
Definition l168 := "stdcx. %4,%y2".
Definition l169 := "stdcx. %1,%y2".
Definition l170 := "membar #Sync".
Definition l171 := "membar #StoreStore | #LoadStore".
Definition l172 := "cas [%1], %2, %0".
Definition l173 := "swap [%1], %0".
Definition l174 := "casx [%1], %2, %0".
Definition l175 := "lock; xaddb %0, %1".
Definition l176 := "xchgb %0, %1".
Definition l177 := "lock; cmpxchgb %3, %1".
Definition l178 := "sete %2".
Definition l179 := ".align 16".
Definition l180 := "1: mov %[arg], %2".
Definition l181 := "andb %%al, %b2".
Definition l182 := "lock; cmpxchgb %b2, %[storage]".
Definition l183 := "jne 1b".
Definition l184 := "orb %%al, %b2".
Definition l185 := "xorb %%al, %b2".
Definition l186 := "lock; xaddw %0, %1".
Definition l187 := "xchgw %0, %1".
Definition l188 := "lock; cmpxchgw %3, %1".
Definition l189 := "andw %%ax, %w2".
Definition l190 := "lock; cmpxchgw %w2, %[storage]".
Definition l191 := "orw %%ax, %w2".
Definition l192 := "xorw %%ax, %w2".
Definition l193 := "lock; xaddl %0, %1".
Definition l194 := "xchgl %0, %1".
Definition l195 := "lock; cmpxchgl %3, %1".
Definition l196 := "1: mov %[arg], %[new_val]".
Definition l197 := "andl %%eax, %[new_val]".
Definition l198 := "lock; cmpxchgl %[new_val], %[storage]".
Definition l199 := "orl %%eax, %[new_val]".
Definition l200 := "xorl %%eax, %[new_val]".
Definition l201 := "vmovq %[value], %[storage]".
Definition l202 := "movq %[value], %[storage]".
Definition l203 := "movlps %[value], %[storage]".
Definition l204 := "fildll %[value]".
Definition l205 := "fistpll %[storage]".
Definition l206 := "xchgl %%ebx, %%esi".
Definition l207 := "movl %%eax, %%ebx".
Definition l208 := "movl (%[dest]), %%eax".
Definition l209 := "movl 4(%[dest]), %%edx".
Definition l210 := "1: lock; cmpxchg8b (%[dest])".
Definition l211 := "movl %[dest_lo], %%eax".
Definition l212 := "movl %[dest_hi], %%edx".
Definition l213 := "1: lock; cmpxchg8b %[dest_lo]".
Definition l214 := "vmovq %[storage], %[value]".
Definition l215 := "movq %[storage], %[value]".
Definition l216 := "xorps %[value], %[value]".
Definition l217 := "movlps %[storage], %[value]".
Definition l218 := "fildll %[storage]".
Definition l219 := "fistpll %[value]".
Definition l220 := "movl %%ebx, %%eax".
Definition l221 := "movl %%ecx, %%edx".
Definition l222 := "lock; cmpxchg8b %[storage]".
Definition l223 := "lock; cmpxchg8b (%[dest])".
Definition l224 := "sete %[success]".
Definition l225 := "lock; cmpxchg8b %[dest]".
Definition l226 := "lock; xaddq %0, %1".
Definition l227 := "xchgq %0, %1".
Definition l228 := "lock; cmpxchgq %3, %1".
Definition l229 := "1: movq %[arg], %[new_val]".
Definition l230 := "andq %%rax, %[new_val]".
Definition l231 := "lock; cmpxchgq %[new_val], %[storage]".
Definition l232 := "orq %%rax, %[new_val]".
Definition l233 := "xorq %%rax, %[new_val]".
Definition l234 := "vmovdqa %[value], %[storage]".
Definition l235 := "movq %[dest_lo], %%rax".
Definition l236 := "movq %[dest_hi], %%rdx".
Definition l237 := "1: lock; cmpxchg16b %[dest_lo]".
Definition l238 := "vmovdqa %[storage], %[value]".
Definition l239 := "movq %%rbx, %%rax".
Definition l240 := "movq %%rcx, %%rdx".
Definition l241 := "lock; cmpxchg16b %[storage]".
Definition l242 := "lock; cmpxchg16b %[dest]".
Definition l243 := "stlb %[value], %[storage]".
Definition l244 := "ldab %[value], %[storage]".
Definition l245 := "teq %[tmp], #0".
Definition l246 := "bne 1b".
Definition l247 := "ldaexb %[original], %[storage]".
Definition l248 := "stlexb %[tmp], %[value], %[storage]".
Definition l249 := "uxtb %[expected], %[expected]".
Definition l250 := "mov %[success], #0".
Definition l251 := "cmp %[original], %[expected]".
Definition l252 := "bne 1f".
Definition l253 := "strexb %[success], %[desired], %[storage]".
Definition l254 := "eor %[success], %[success], #1".
Definition l255 := "stlexb %[success], %[desired], %[storage]".
Definition l256 := "bne 2f".
Definition l257 := "eors %[success], %[success], #1".
Definition l258 := "beq 1b".
Definition l259 := "add %[result], %[original], %[value]".
Definition l260 := "strexb %[tmp], %[result], %[storage]".
Definition l261 := "stlexb %[tmp], %[result], %[storage]".
Definition l262 := "sub %[result], %[original], %[value]".
Definition l263 := "and %[result], %[original], %[value]".
Definition l264 := "orr %[result], %[original], %[value]".
Definition l265 := "eor %[result], %[original], %[value]".
Definition l266 := "stlh %[value], %[storage]".
Definition l267 := "ldah %[value], %[storage]".
Definition l268 := "ldaexh %[original], %[storage]".
Definition l269 := "stlexh %[tmp], %[value], %[storage]".
Definition l270 := "uxth %[expected], %[expected]".
Definition l271 := "strexh %[success], %[desired], %[storage]".
Definition l272 := "stlexh %[success], %[desired], %[storage]".
Definition l273 := "strexh %[tmp], %[result], %[storage]".
Definition l274 := "stlexh %[tmp], %[result], %[storage]".
Definition l275 := "stl %[value], %[storage]".
Definition l276 := "lda %[value], %[storage]".
Definition l277 := "ldaex %[original], %[storage]".
Definition l278 := "stlex %[tmp], %[value], %[storage]".
Definition l279 := "strex %[success], %[desired], %[storage]".
Definition l280 := "stlex %[success], %[desired], %[storage]".
Definition l281 := "strex %[tmp], %[result], %[storage]".
Definition l282 := "stlex %[tmp], %[result], %[storage]".
Definition l283 := "stlexd %0, %3, %H3, %2".
Definition l284 := "teq %0, #0".
Definition l285 := "ldaexd %0, %H0, %1".
Definition l286 := "ldaexd %1, %H1, %2".
Definition l287 := "mov %1, #0".
Definition l288 := "ldrexd %0, %H0, %2".
Definition l289 := "cmp %0, %3".
Definition l290 := "it eq".
Definition l291 := "cmpeq %H0, %H3".
Definition l292 := "strexd %1, %4, %H4, %2".
Definition l293 := "eor %1, %1, #1".
Definition l294 := "ldaexd %0, %H0, %2".
Definition l295 := "stlexd %1, %4, %H4, %2".
Definition l296 := "eors %1, %1, #1".
Definition l297 := "adds %3, %0, %4".
Definition l298 := "adc %H3, %H0, %H4".
Definition l299 := "strexd %1, %3, %H3, %2".
Definition l300 := "teq %1, #0".
Definition l301 := "adds %H3, %H0, %H4".
Definition l302 := "adc %3, %0, %4".
Definition l303 := "stlexd %1, %3, %H3, %2".
Definition l304 := "subs %3, %0, %4".
Definition l305 := "sbc %H3, %H0, %H4".
Definition l306 := "subs %H3, %H0, %H4".
Definition l307 := "sbc %3, %0, %4".
Definition l308 := "and %3, %0, %4".
Definition l309 := "and %H3, %H0, %H4".
Definition l310 := "orr %3, %0, %4".
Definition l311 := "orr %H3, %H0, %H4".
Definition l312 := "eor %3, %0, %4".
Definition l313 := "eor %H3, %H0, %H4".
Definition l314 := "stlrb %w[value], %[storage]".
Definition l315 := "ldaprb %w[value], %[storage]".
Definition l316 := "ldarb %w[value], %[storage]".
Definition l317 := "swpb %w[value], %w[original], %[storage]".
Definition l318 := "swpab %w[value], %w[original], %[storage]".
Definition l319 := "swplb %w[value], %w[original], %[storage]".
Definition l320 := "swpalb %w[value], %w[original], %[storage]".
Definition l321 := "ldxrb %w[original], %[storage]".
Definition l322 := "stxrb %w[tmp], %w[value], %[storage]".
Definition l323 := "cbnz %w[tmp], 1b".
Definition l324 := "ldaxrb %w[original], %[storage]".
Definition l325 := "stlxrb %w[tmp], %w[value], %[storage]".
Definition l326 := "casb %w[original], %w[desired], %[storage]".
Definition l327 := "casab %w[original], %w[desired], %[storage]".
Definition l328 := "caslb %w[original], %w[desired], %[storage]".
Definition l329 := "casalb %w[original], %w[desired], %[storage]".
Definition l330 := "uxtb %w[expected], %w[expected]".
Definition l331 := "mov %w[success], #0".
Definition l332 := "cmp %w[original], %w[expected]".
Definition l333 := "b.ne 1f".
Definition l334 := "stxrb %w[success], %w[desired], %[storage]".
Definition l335 := "eor %w[success], %w[success], #1".
Definition l336 := "stlxrb %w[success], %w[desired], %[storage]".
Definition l337 := "b.ne 2f".
Definition l338 := "cbnz %w[success], 1b".
Definition l339 := "cset %w[success], eq".
Definition l340 := "ldaddb %w[value], %w[original], %[storage]".
Definition l341 := "ldaddab %w[value], %w[original], %[storage]".
Definition l342 := "ldaddlb %w[value], %w[original], %[storage]".
Definition l343 := "ldaddalb %w[value], %w[original], %[storage]".
Definition l344 := "add %w[result], %w[original], %w[value]".
Definition l345 := "stxrb %w[tmp], %w[result], %[storage]".
Definition l346 := "stlxrb %w[tmp], %w[result], %[storage]".
Definition l347 := "sub %w[result], %w[original], %w[value]".
Definition l348 := "ldclrb %w[value], %w[original], %[storage]".
Definition l349 := "ldclrab %w[value], %w[original], %[storage]".
Definition l350 := "ldclrlb %w[value], %w[original], %[storage]".
Definition l351 := "ldclralb %w[value], %w[original], %[storage]".
Definition l352 := "and %w[result], %w[original], %w[value]".
Definition l353 := "ldsetb %w[value], %w[original], %[storage]".
Definition l354 := "ldsetab %w[value], %w[original], %[storage]".
Definition l355 := "ldsetlb %w[value], %w[original], %[storage]".
Definition l356 := "ldsetalb %w[value], %w[original], %[storage]".
Definition l357 := "orr %w[result], %w[original], %w[value]".
Definition l358 := "ldeorb %w[value], %w[original], %[storage]".
Definition l359 := "ldeorab %w[value], %w[original], %[storage]".
Definition l360 := "ldeorlb %w[value], %w[original], %[storage]".
Definition l361 := "ldeoralb %w[value], %w[original], %[storage]".
Definition l362 := "eor %w[result], %w[original], %w[value]".
Definition l363 := "stlrh %w[value], %[storage]".
Definition l364 := "ldaprh %w[value], %[storage]".
Definition l365 := "ldarh %w[value], %[storage]".
Definition l366 := "swph %w[value], %w[original], %[storage]".
Definition l367 := "swpah %w[value], %w[original], %[storage]".
Definition l368 := "swplh %w[value], %w[original], %[storage]".
Definition l369 := "swpalh %w[value], %w[original], %[storage]".
Definition l370 := "ldxrh %w[original], %[storage]".
Definition l371 := "stxrh %w[tmp], %w[value], %[storage]".
Definition l372 := "ldaxrh %w[original], %[storage]".
Definition l373 := "stlxrh %w[tmp], %w[value], %[storage]".
Definition l374 := "cash %w[original], %w[desired], %[storage]".
Definition l375 := "casah %w[original], %w[desired], %[storage]".
Definition l376 := "caslh %w[original], %w[desired], %[storage]".
Definition l377 := "casalh %w[original], %w[desired], %[storage]".
Definition l378 := "uxth %w[expected], %w[expected]".
Definition l379 := "stxrh %w[success], %w[desired], %[storage]".
Definition l380 := "stlxrh %w[success], %w[desired], %[storage]".
Definition l381 := "ldaddh %w[value], %w[original], %[storage]".
Definition l382 := "ldaddah %w[value], %w[original], %[storage]".
Definition l383 := "ldaddlh %w[value], %w[original], %[storage]".
Definition l384 := "ldaddalh %w[value], %w[original], %[storage]".
Definition l385 := "stxrh %w[tmp], %w[result], %[storage]".
Definition l386 := "stlxrh %w[tmp], %w[result], %[storage]".
Definition l387 := "ldclrh %w[value], %w[original], %[storage]".
Definition l388 := "ldclrah %w[value], %w[original], %[storage]".
Definition l389 := "ldclrlh %w[value], %w[original], %[storage]".
Definition l390 := "ldclralh %w[value], %w[original], %[storage]".
Definition l391 := "ldseth %w[value], %w[original], %[storage]".
Definition l392 := "ldsetah %w[value], %w[original], %[storage]".
Definition l393 := "ldsetlh %w[value], %w[original], %[storage]".
Definition l394 := "ldsetalh %w[value], %w[original], %[storage]".
Definition l395 := "ldeorh %w[value], %w[original], %[storage]".
Definition l396 := "ldeorah %w[value], %w[original], %[storage]".
Definition l397 := "ldeorlh %w[value], %w[original], %[storage]".
Definition l398 := "ldeoralh %w[value], %w[original], %[storage]".
Definition l399 := "stlr %w[value], %[storage]".
Definition l400 := "ldapr %w[value], %[storage]".
Definition l401 := "ldar %w[value], %[storage]".
Definition l402 := "swp %w[value], %w[original], %[storage]".
Definition l403 := "swpa %w[value], %w[original], %[storage]".
Definition l404 := "swpl %w[value], %w[original], %[storage]".
Definition l405 := "swpal %w[value], %w[original], %[storage]".
Definition l406 := "ldxr %w[original], %[storage]".
Definition l407 := "stxr %w[tmp], %w[value], %[storage]".
Definition l408 := "ldaxr %w[original], %[storage]".
Definition l409 := "stlxr %w[tmp], %w[value], %[storage]".
Definition l410 := "cas %w[original], %w[desired], %[storage]".
Definition l411 := "casa %w[original], %w[desired], %[storage]".
Definition l412 := "casl %w[original], %w[desired], %[storage]".
Definition l413 := "casal %w[original], %w[desired], %[storage]".
Definition l414 := "stxr %w[success], %w[desired], %[storage]".
Definition l415 := "stlxr %w[success], %w[desired], %[storage]".
Definition l416 := "ldadd %w[value], %w[original], %[storage]".
Definition l417 := "ldadda %w[value], %w[original], %[storage]".
Definition l418 := "ldaddl %w[value], %w[original], %[storage]".
Definition l419 := "ldaddal %w[value], %w[original], %[storage]".
Definition l420 := "stxr %w[tmp], %w[result], %[storage]".
Definition l421 := "stlxr %w[tmp], %w[result], %[storage]".
Definition l422 := "ldclr %w[value], %w[original], %[storage]".
Definition l423 := "ldclra %w[value], %w[original], %[storage]".
Definition l424 := "ldclrl %w[value], %w[original], %[storage]".
Definition l425 := "ldclral %w[value], %w[original], %[storage]".
Definition l426 := "ldset %w[value], %w[original], %[storage]".
Definition l427 := "ldseta %w[value], %w[original], %[storage]".
Definition l428 := "ldsetl %w[value], %w[original], %[storage]".
Definition l429 := "ldsetal %w[value], %w[original], %[storage]".
Definition l430 := "ldeor %w[value], %w[original], %[storage]".
Definition l431 := "ldeora %w[value], %w[original], %[storage]".
Definition l432 := "ldeorl %w[value], %w[original], %[storage]".
Definition l433 := "ldeoral %w[value], %w[original], %[storage]".
Definition l434 := "stlr %x[value], %[storage]".
Definition l435 := "ldapr %x[value], %[storage]".
Definition l436 := "ldar %x[value], %[storage]".
Definition l437 := "swp %x[value], %x[original], %[storage]".
Definition l438 := "swpa %x[value], %x[original], %[storage]".
Definition l439 := "swpl %x[value], %x[original], %[storage]".
Definition l440 := "swpal %x[value], %x[original], %[storage]".
Definition l441 := "ldxr %x[original], %[storage]".
Definition l442 := "stxr %w[tmp], %x[value], %[storage]".
Definition l443 := "ldaxr %x[original], %[storage]".
Definition l444 := "stlxr %w[tmp], %x[value], %[storage]".
Definition l445 := "cas %x[original], %x[desired], %[storage]".
Definition l446 := "casa %x[original], %x[desired], %[storage]".
Definition l447 := "casl %x[original], %x[desired], %[storage]".
Definition l448 := "casal %x[original], %x[desired], %[storage]".
Definition l449 := "cmp %x[original], %x[expected]".
Definition l450 := "stxr %w[success], %x[desired], %[storage]".
Definition l451 := "stlxr %w[success], %x[desired], %[storage]".
Definition l452 := "ldadd %x[value], %x[original], %[storage]".
Definition l453 := "ldadda %x[value], %x[original], %[storage]".
Definition l454 := "ldaddl %x[value], %x[original], %[storage]".
Definition l455 := "ldaddal %x[value], %x[original], %[storage]".
Definition l456 := "add %x[result], %x[original], %x[value]".
Definition l457 := "stxr %w[tmp], %x[result], %[storage]".
Definition l458 := "stlxr %w[tmp], %x[result], %[storage]".
Definition l459 := "sub %x[result], %x[original], %x[value]".
Definition l460 := "ldclr %x[value], %x[original], %[storage]".
Definition l461 := "ldclra %x[value], %x[original], %[storage]".
Definition l462 := "ldclrl %x[value], %x[original], %[storage]".
Definition l463 := "ldclral %x[value], %x[original], %[storage]".
Definition l464 := "and %x[result], %x[original], %x[value]".
Definition l465 := "ldset %x[value], %x[original], %[storage]".
Definition l466 := "ldseta %x[value], %x[original], %[storage]".
Definition l467 := "ldsetl %x[value], %x[original], %[storage]".
Definition l468 := "ldsetal %x[value], %x[original], %[storage]".
Definition l469 := "orr %x[result], %x[original], %x[value]".
Definition l470 := "ldeor %x[value], %x[original], %[storage]".
Definition l471 := "ldeora %x[value], %x[original], %[storage]".
Definition l472 := "ldeorl %x[value], %x[original], %[storage]".
Definition l473 := "ldeoral %x[value], %x[original], %[storage]".
Definition l474 := "eor %x[result], %x[original], %x[value]".
Definition l475 := "ldxp %x[original_0], %x[original_1], %[storage]".
Definition l476 := "stlxp %w[tmp], %x[value_0], %x[value_1], %[storage]".
Definition l477 := "stxp %w[tmp], %x[value_0], %x[value_1], %[storage]".
Definition l478 := "ldaxp %x[value_0], %x[value_1], %[storage]".
Definition l479 := "ldxp %x[value_0], %x[value_1], %[storage]".
Definition l480 := "ldaxp %x[original_0], %x[original_1], %[storage]".
Definition l481 := "cmp %x[original_0], %x[expected_0]".
Definition l482 := "ccmp %x[original_1], %x[expected_1], #0, eq".
Definition l483 := "stxp %w[success], %x[desired_0], %x[desired_1], %[storage]".
Definition l484 := "stlxp %w[success], %x[desired_0], %x[desired_1], %[storage]".
Definition l485 := "adds %x[result_0], %x[original_0], %x[value_0]".
Definition l486 := "adc %x[result_1], %x[original_1], %x[value_1]".
Definition l487 := "stxp %w[tmp], %x[result_0], %x[result_1], %[storage]".
Definition l488 := "adds %x[result_1], %x[original_1], %x[value_1]".
Definition l489 := "adc %x[result_0], %x[original_0], %x[value_0]".
Definition l490 := "stlxp %w[tmp], %x[result_0], %x[result_1], %[storage]".
Definition l491 := "subs %x[result_0], %x[original_0], %x[value_0]".
Definition l492 := "sbc %x[result_1], %x[original_1], %x[value_1]".
Definition l493 := "subs %x[result_1], %x[original_1], %x[value_1]".
Definition l494 := "sbc %x[result_0], %x[original_0], %x[value_0]".
Definition l495 := "and %x[result_0], %x[original_0], %x[value_0]".
Definition l496 := "and %x[result_1], %x[original_1], %x[value_1]".
Definition l497 := "orr %x[result_0], %x[original_0], %x[value_0]".
Definition l498 := "orr %x[result_1], %x[original_1], %x[value_1]".
Definition l499 := "eor %x[result_0], %x[original_0], %x[value_0]".
Definition l500 := "eor %x[result_1], %x[original_1], %x[value_1]".
Definition l501 := "rsb      %[result], %[original], #0".
Definition l502 := "mvn      %[result], %[original]".
Definition l503 := "ldrex    %[original], %[storage]".
Definition l504 := "strex    %[tmp], %[result], %[storage]".
Definition l505 := "mvn     %2, %1".
Definition l506 := "mvn     %H2, %H1".
Definition l507 := "adds   %2, %2, #1".
Definition l508 := "adc    %H2, %H2, #0".
Definition l509 := "adds   %H2, %H2, #1".
Definition l510 := "adc    %2, %2, #0".
Definition l511 := "neg %1,%0".
Definition l512 := "nor %1,%0,%0".
Definition l513 := "1: movzbl %[orig], %2".
Definition l514 := "negb %b2".
Definition l515 := "notb %b2".
Definition l516 := "lock; incb %[storage]".
Definition l517 := "lock; addb %[argument], %[storage]".
Definition l518 := "lock; decb %[storage]".
Definition l519 := "lock; subb %[argument], %[storage]".
Definition l520 := "lock; negb %[storage]".
Definition l521 := "lock; andb %[argument], %[storage]".
Definition l522 := "lock; orb %[argument], %[storage]".
Definition l523 := "lock; xorb %[argument], %[storage]".
Definition l524 := "lock; notb %[storage]".
Definition l525 := "setnz %[result]".
Definition l526 := "1: movzwl %[orig], %2".
Definition l527 := "negw %w2".
Definition l528 := "notw %w2".
Definition l529 := "lock; incw %[storage]".
Definition l530 := "lock; addw %[argument], %[storage]".
Definition l531 := "lock; decw %[storage]".
Definition l532 := "lock; subw %[argument], %[storage]".
Definition l533 := "lock; negw %[storage]".
Definition l534 := "lock; andw %[argument], %[storage]".
Definition l535 := "lock; orw %[argument], %[storage]".
Definition l536 := "lock; xorw %[argument], %[storage]".
Definition l537 := "lock; notw %[storage]".
Definition l538 := "lock; btsw %[bit_number], %[storage]".
Definition l539 := "setc %[result]".
Definition l540 := "lock; btrw %[bit_number], %[storage]".
Definition l541 := "lock; btcw %[bit_number], %[storage]".
Definition l542 := "1: mov %[orig], %[res]".
Definition l543 := "negl %[res]".
Definition l544 := "lock; cmpxchgl %[res], %[storage]".
Definition l545 := "notl %[res]".
Definition l546 := "1: mov %[arg], %[res]".
Definition l547 := "andl %%eax, %[res]".
Definition l548 := "orl %%eax, %[res]".
Definition l549 := "xorl %%eax, %[res]".
Definition l550 := "lock; incl %[storage]".
Definition l551 := "lock; addl %[argument], %[storage]".
Definition l552 := "lock; decl %[storage]".
Definition l553 := "lock; subl %[argument], %[storage]".
Definition l554 := "lock; negl %[storage]".
Definition l555 := "lock; andl %[argument], %[storage]".
Definition l556 := "lock; orl %[argument], %[storage]".
Definition l557 := "lock; xorl %[argument], %[storage]".
Definition l558 := "lock; notl %[storage]".
Definition l559 := "lock; btsl %[bit_number], %[storage]".
Definition l560 := "lock; btrl %[bit_number], %[storage]".
Definition l561 := "lock; btcl %[bit_number], %[storage]".
Definition l562 := "negq %[res]".
Definition l563 := "lock; cmpxchgq %[res], %[storage]".
Definition l564 := "notq %[res]".
Definition l565 := "andq %%rax, %[res]".
Definition l566 := "orq %%rax, %[res]".
Definition l567 := "xorq %%rax, %[res]".
Definition l568 := "lock; incq %[storage]".
Definition l569 := "lock; addq %[argument], %[storage]".
Definition l570 := "lock; decq %[storage]".
Definition l571 := "lock; subq %[argument], %[storage]".
Definition l572 := "lock; negq %[storage]".
Definition l573 := "lock; andq %[argument], %[storage]".
Definition l574 := "lock; orq %[argument], %[storage]".
Definition l575 := "lock; xorq %[argument], %[storage]".
Definition l576 := "lock; notq %[storage]".
Definition l577 := "lock; btsq %[bit_number], %[storage]".
Definition l578 := "lock; btrq %[bit_number], %[storage]".
Definition l579 := "lock; btcq %[bit_number], %[storage]".
Definition l580 := "rsb %[result], %[original], #0".
Definition l581 := "ldrexb %[result], %[storage]".
Definition l582 := "rsb %[result], #0".
Definition l583 := "ldaexb %[result], %[storage]".
Definition l584 := "add %[result], %[value]".
Definition l585 := "sub %[result], %[value]".
Definition l586 := "and %[result], %[value]".
Definition l587 := "orr %[result], %[value]".
Definition l588 := "eor %[result], %[value]".
Definition l589 := "mvn %[result], %[original]".
Definition l590 := "mvn %[result], %[result]".
Definition l591 := "ldrexh %[result], %[storage]".
Definition l592 := "ldaexh %[result], %[storage]".
Definition l593 := "ldrex %[result], %[storage]".
Definition l594 := "ldaex %[result], %[storage]".
Definition l595 := "mvn %3, %0".
Definition l596 := "mvn %H3, %H0".
Definition l597 := "adds %3, #1".
Definition l598 := "adc %H3, #0".
Definition l599 := "adds %H3, #1".
Definition l600 := "adc %3, #0".
Definition l601 := "mvn %0, %0".
Definition l602 := "mvn %H0, %H0".
Definition l603 := "adds %0, #1".
Definition l604 := "adc %H0, #0".
Definition l605 := "strexd %1, %0, %H0, %2".
Definition l606 := "adds %H0, #1".
Definition l607 := "adc %0, #0".
Definition l608 := "stlexd %1, %0, %H0, %2".
Definition l609 := "adds %0, %3".
Definition l610 := "adc %H0, %H3".
Definition l611 := "adds %H0, %H3".
Definition l612 := "adc %0, %3".
Definition l613 := "subs %0, %3".
Definition l614 := "sbc %H0, %H3".
Definition l615 := "subs %H0, %H3".
Definition l616 := "sbc %0, %3".
Definition l617 := "and %0, %3".
Definition l618 := "and %H0, %H3".
Definition l619 := "orr %0, %3".
Definition l620 := "orr %H0, %H3".
Definition l621 := "eor %0, %3".
Definition l622 := "eor %H0, %H3".
Definition l623 := "neg %w[result], %w[original]".
Definition l624 := "ldxrb %w[result], %[storage]".
Definition l625 := "neg %w[result], %w[result]".
Definition l626 := "ldaxrb %w[result], %[storage]".
Definition l627 := "add %w[result], %w[result], %w[value]".
Definition l628 := "sub %w[result], %w[result], %w[value]".
Definition l629 := "and %w[result], %w[result], %w[value]".
Definition l630 := "orr %w[result], %w[result], %w[value]".
Definition l631 := "eor %w[result], %w[result], %w[value]".
Definition l632 := "mvn %w[result], %w[original]".
Definition l633 := "mvn %w[result], %w[result]".
Definition l634 := "ldxrh %w[result], %[storage]".
Definition l635 := "ldaxrh %w[result], %[storage]".
Definition l636 := "ldxr %w[result], %[storage]".
Definition l637 := "ldaxr %w[result], %[storage]".
Definition l638 := "neg %x[result], %x[original]".
Definition l639 := "ldxr %x[result], %[storage]".
Definition l640 := "neg %x[result], %x[result]".
Definition l641 := "ldaxr %x[result], %[storage]".
Definition l642 := "add %x[result], %x[result], %x[value]".
Definition l643 := "sub %x[result], %x[result], %x[value]".
Definition l644 := "and %x[result], %x[result], %x[value]".
Definition l645 := "orr %x[result], %x[result], %x[value]".
Definition l646 := "eor %x[result], %x[result], %x[value]".
Definition l647 := "mvn %x[result], %x[original]".
Definition l648 := "mvn %x[result], %x[result]".
Definition l649 := "mvn %x[result_0], %x[original_0]".
Definition l650 := "mvn %x[result_1], %x[original_1]".
Definition l651 := "adds %x[result_0], %x[result_0], #1".
Definition l652 := "adc %x[result_1], %x[result_1], xzr".
Definition l653 := "adds %x[result_1], %x[result_1], #1".
Definition l654 := "adc %x[result_0], %x[result_0], xzr".
Definition l655 := "ldxp %x[result_0], %x[result_1], %[storage]".
Definition l656 := "mvn %x[result_0], %x[result_0]".
Definition l657 := "mvn %x[result_1], %x[result_1]".
Definition l658 := "ldaxp %x[result_0], %x[result_1], %[storage]".
Definition l659 := "adds %x[result_0], %x[result_0], %x[value_0]".
Definition l660 := "adc %x[result_1], %x[result_1], %x[value_1]".
Definition l661 := "adds %x[result_1], %x[result_1], %x[value_1]".
Definition l662 := "adc %x[result_0], %x[result_0], %x[value_0]".
Definition l663 := "subs %x[result_0], %x[result_0], %x[value_0]".
Definition l664 := "sbc %x[result_1], %x[result_1], %x[value_1]".
Definition l665 := "subs %x[result_1], %x[result_1], %x[value_1]".
Definition l666 := "sbc %x[result_0], %x[result_0], %x[value_0]".
Definition l667 := "and %x[result_0], %x[result_0], %x[value_0]".
Definition l668 := "and %x[result_1], %x[result_1], %x[value_1]".
Definition l669 := "orr %x[result_0], %x[result_0], %x[value_0]".
Definition l670 := "orr %x[result_1], %x[result_1], %x[value_1]".
Definition l671 := "eor %x[result_0], %x[result_0], %x[value_0]".
Definition l672 := "eor %x[result_1], %x[result_1], %x[value_1]".
Definition l673 := "lwsync".
Definition l674 := ".short 0xF3BF, 0x8F5B".
Definition l675 := ".word 0xF57FF05B".
Definition l676 := "mcr p15, 0, r0, c7, c10, 5".
Definition l677 := "membar #LoadLoad | #LoadStore".
Definition l678 := "membar #LoadLoad | #LoadStore | #StoreStore".
Definition l679 := "lock; notb %0".
Definition l680 := "dmb ishld".
Definition l681 := "dmb ish".
Definition o0 := Opd "" "=&r" "original" "storage_type".
Definition o1 := Opd "" "=&r" "tmp" "storage_type".
Definition o2 := Opd "" "m" "storage" "storage_type".
Definition o3 := Opd "" "r" "v" "storage_type".
Definition o4 := Opd "" "+r" "expected" "storage_type".
Definition o5 := Opd "" "+r" "desired" "storage_type".
Definition o6 := Opd "" "=&r" "current" "storage_type".
Definition o7 := Opd "" "=&r" "success" "int".
Definition o8 := Opd "" "r" "desired" "storage_type".
Definition o9 := Opd "" "=&r" "modified" "storage_type".
Definition o10 := Opd "tmp" "=&l" "tmp" "std::uint32_t".
Definition o11 := Opd "original" "=&r" "original" "storage_type".
Definition o12 := Opd "storage" "+Q" "storage" "storage_type".
Definition o13 := Opd "value" "r" "v" "storage_type".
Definition o14 := Opd "success" "+r" "success" "bool".
Definition o15 := Opd "expected" "Ir" "expected" "storage_type".
Definition o16 := Opd "desired" "r" "desired" "storage_type".
Definition o17 := Opd "result" "=&r" "result" "storage_type".
Definition o18 := Opd "value" "Ir" "v" "storage_type".
Definition o19 := Opd "original" "=&r" "original" "extended_storage_type".
Definition o20 := Opd "expected" "Ir" "atomics::detail::zero_extend< extended_storage_type >(expected)" "storage_type".
Definition o21 := Opd "result" "=&r" "result" "extended_storage_type".
Definition o22 := Opd "" "Q" "storage" "storage_type".
Definition o23 := Opd "" "=&l" "tmp" "std::uint32_t".
Definition o24 := Opd "" "+Q" "storage" "storage_type".
Definition o25 := Opd "" "+r" "success" "bool".
Definition o26 := Opd "" "r" "expected" "storage_type".
Definition o27 := Opd "" "=&r" "result" "storage_type".
Definition o28 := Opd "" "+m" "storage" "storage_type".
Definition o29 := Opd "" "=&r" "v" "storage_type".
Definition o30 := Opd "" "=&b" "original" "storage_type".
Definition o31 := Opd "" "+Z" "storage" "storage_type".
Definition o32 := Opd "" "b" "v" "storage_type".
Definition o33 := Opd "" "=&b" "expected" "storage_type".
Definition o34 := Opd "" "=&b" "success" "int".
Definition o35 := Opd "" "b" "expected" "storage_type".
Definition o36 := Opd "" "b" "desired" "storage_type".
Definition o37 := Opd "" "=&b" "result" "storage_type".
Definition o38 := Opd "" "=&b" "v" "storage_type".
Definition o39 := Opd "" "r" "&storage" "storage_type".
Definition o40 := Opd "" "r" "previous" "storage_type".
Definition o41 := Opd "" "+r" "v" "storage_type".
Definition o42 := Opd "" "+q" "v" "storage_type".
Definition o43 := Opd "" "+a" "previous" "storage_type".
Definition o44 := Opd "" "=@ccz" "success" "bool".
Definition o45 := Opd "" "q" "desired" "storage_type".
Definition o46 := Opd "" "=q" "success" "bool".
Definition o47 := Opd "res" "+a" "res" "storage_type".
Definition o48 := Opd "storage" "+m" "storage" "storage_type".
Definition o49 := Opd "" "=&q" "new_val" "".
Definition o50 := Opd "arg" "ir" "(temp_storage_type)v" "storage_type".
Definition o51 := Opd "new_val" "=&r" "new_val" "".
Definition o52 := Opd "arg" "ir" "v" "storage_type".
Definition o53 := Opd "storage" "=m" "storage" "storage_type".
Definition o54 := Opd "value" "x" "value" "xmm_t".
Definition o55 := Opd "value" "m" "v" "storage_type".
Definition o56 := Opd "" "a" "(std::uint32_t)v" "storage_type".
Definition o57 := Opd "" "c" "(std::uint32_t)(v >> 32u)" "storage_type".
Definition o58 := Opd "dest" "D" "&storage" "storage_type".
Definition o59 := Opd "dest_lo" "=m" "storage" "storage_type".
Definition o60 := Opd "dest_hi" "=m" "reinterpret_cast< volatile aliasing_uint32_t* >(&storage)[1]" "storage_type".
Definition o61 := Opd "value_lo" "b" "(std::uint32_t)v" "storage_type".
Definition o62 := Opd "value" "=x" "v" "xmm_t".
Definition o63 := Opd "storage" "m" "storage" "storage_type".
Definition o64 := Opd "value" "=m" "value" "storage_type".
Definition o65 := Opd "" "=&a" "value_bits[0]" "std::uint32_t".
Definition o66 := Opd "" "=&d" "value_bits[1]" "std::uint32_t".
Definition o67 := Opd "" "=&A" "value" "storage_type".
Definition o68 := Opd "" "+A" "expected" "storage_type".
Definition o69 := Opd "success" "=@ccz" "success" "bool".
Definition o70 := Opd "" "S" "(std::uint32_t)desired" "storage_type".
Definition o71 := Opd "" "c" "(std::uint32_t)(desired >> 32u)" "storage_type".
Definition o72 := Opd "success" "=qm" "success" "bool".
Definition o73 := Opd "dest" "+m" "storage" "storage_type".
Definition o74 := Opd "" "b" "(std::uint32_t)desired" "storage_type".
Definition o75 := Opd "" "=a" "old_bits[0]" "std::uint32_t".
Definition o76 := Opd "" "=d" "old_bits[1]" "std::uint32_t".
Definition o77 := Opd "" "S" "(std::uint32_t)v" "storage_type".
Definition o78 := Opd "" "=A" "old_value" "storage_type".
Definition o79 := Opd "" "=&a" "old_bits[0]" "std::uint32_t".
Definition o80 := Opd "" "=&d" "old_bits[1]" "std::uint32_t".
Definition o81 := Opd "" "b" "(std::uint32_t)v" "storage_type".
Definition o82 := Opd "dest" "DS" "&storage" "storage_type".
Definition o83 := Opd "dest_lo" "+m" "storage" "storage_type".
Definition o84 := Opd "dest_hi" "+m" "reinterpret_cast< volatile aliasing_uint32_t* >(&storage)[1]" "storage_type".
Definition o85 := Opd "" "=&A" "old_value" "storage_type".
Definition o86 := Opd "arg" "r" "v" "storage_type".
Definition o87 := Opd "dest_hi" "=m" "reinterpret_cast< volatile aliasing_uint64_t* >(&storage)[1]" "storage_type".
Definition o88 := Opd "" "b" "reinterpret_cast< const aliasing_uint64_t* >(&v)[0]" "storage_type".
Definition o89 := Opd "" "c" "reinterpret_cast< const aliasing_uint64_t* >(&v)[1]" "storage_type".
Definition o90 := Opd "" "=&a" "value_bits[0]" "std::uint64_t".
Definition o91 := Opd "" "=&d" "value_bits[1]" "std::uint64_t".
Definition o92 := Opd "" "+a" "reinterpret_cast< aliasing_uint64_t* >(&expected)[0]" "storage_type".
Definition o93 := Opd "" "+d" "reinterpret_cast< aliasing_uint64_t* >(&expected)[1]" "storage_type".
Definition o94 := Opd "success" "=q" "success" "bool".
Definition o95 := Opd "" "b" "reinterpret_cast< const aliasing_uint64_t* >(&desired)[0]" "storage_type".
Definition o96 := Opd "" "c" "reinterpret_cast< const aliasing_uint64_t* >(&desired)[1]" "storage_type".
Definition o97 := Opd "dest_hi" "+m" "reinterpret_cast< volatile aliasing_uint64_t* >(&storage)[1]" "storage_type".
Definition o98 := Opd "" "=&a" "old_bits[0]" "std::uint64_t".
Definition o99 := Opd "" "=&d" "old_bits[1]" "std::uint64_t".
Definition o100 := Opd "storage" "=Q" "storage" "storage_type".
Definition o101 := Opd "value" "=r" "v" "storage_type".
Definition o102 := Opd "storage" "Q" "storage" "storage_type".
Definition o103 := Opd "tmp" "=&r" "tmp" "std::uint32_t".
Definition o104 := Opd "success" "=&r" "success" "bool".
Definition o105 := Opd "expected" "r" "expected" "storage_type".
Definition o106 := Opd "" "=&r" "tmp" "std::uint32_t".
Definition o107 := Opd "" "=&r" "success" "bool".
Definition o108 := Opd "original" "=r" "original" "storage_type".
Definition o109 := Opd "original" "+r" "original" "storage_type".
Definition o110 := Opd "value" "Kr" "v" "storage_type".
Definition o111 := Opd "value" "Lr" "v" "storage_type".
Definition o112 := Opd "original_0" "=&r" "original.as_uint64[0u]" "storage_union".
Definition o113 := Opd "original_1" "=&r" "original.as_uint64[1u]" "storage_union".
Definition o114 := Opd "value_0" "r" "value.as_uint64[0u]" "storage_union".
Definition o115 := Opd "value_1" "r" "value.as_uint64[1u]" "storage_union".
Definition o116 := Opd "value_0" "=&r" "v.as_uint64[0u]" "storage_union".
Definition o117 := Opd "value_1" "=&r" "v.as_uint64[1u]" "storage_union".
Definition o118 := Opd "desired_0" "r" "d.as_uint64[0u]" "storage_union".
Definition o119 := Opd "desired_1" "r" "d.as_uint64[1u]" "storage_union".
Definition o120 := Opd "expected_0" "r" "e.as_uint64[0u]" "storage_union".
Definition o121 := Opd "expected_1" "r" "e.as_uint64[1u]" "storage_union".
Definition o122 := Opd "result_0" "=&r" "result.as_uint64[0u]" "storage_union".
Definition o123 := Opd "result_1" "=&r" "result.as_uint64[1u]" "storage_union".
Definition o124 := Opd "value_0" "Lr" "value.as_uint64[0u]" "storage_union".
Definition o125 := Opd "value_1" "Lr" "value.as_uint64[1u]" "storage_union".
Definition o126 := Opd "orig" "+a" "original" "storage_type".
Definition o127 := Opd "" "=&q" "result" "temp_storage_type".
Definition o128 := Opd "argument" "iq" "v" "storage_type".
Definition o129 := Opd "result" "=@ccnz" "res" "bool".
Definition o130 := Opd "result" "=q" "res" "bool".
Definition o131 := Opd "result" "=@ccc" "res" "bool".
Definition o132 := Opd "bit_number" "Kq" "(std::uint16_t)bit_number" "int".
Definition o133 := Opd "res" "=&r" "result" "storage_type".
Definition o134 := Opd "argument" "ir" "v" "storage_type".
Definition o135 := Opd "bit_number" "Kr" "(std::uint32_t)bit_number" "int".
Definition o136 := Opd "argument" "er" "v" "storage_type".
Definition o137 := Opd "bit_number" "Kr" "(std::uint64_t)bit_number" "int".
Definition o138 := Opd "" "+m" "dummy" "char".

Definition blocks_alpha : list block := [
Blk Alpha "core_arch_ops_gcc_alpha.hpp" 73 "fence_before" 0 0 false false [l0] [] [] ["memory"] None;
Blk Alpha "core_arch_ops_gcc_alpha.hpp" 79 "fence_after" 0 0 false false [l0] [] [] ["memory"] None;
Blk Alpha "core_arch_ops_gcc_alpha.hpp" 85 "fence_after_store" 0 0 false false [l0] [] [] ["memory"] None;
Blk Alpha "core_arch_ops_gcc_alpha.hpp" 119 "exchange" 32 32 false false [l1; l2; l3; l4; l5; l6; l7; l8] [o0; o1] [o2; o3] ["cc"] None;
Blk Alpha "core_arch_ops_gcc_alpha.hpp" 147 "compare_exchange_weak" 32 32 false false [l1; l9; l10; l11; l12; l13; l14; l15] [o4; o5; o6; o7] [o2] ["cc"] None;
Blk Alpha "core_arch_ops_gcc_alpha.hpp" 177 "compare_exchange_strong" 32 32 false false [l1; l16; l9; l10; l11; l12; l13; l17; l14; l15; l6; l18; l8] [o4; o1; o6; o7] [o2; o8] ["cc"] None;
Blk Alpha "core_arch_ops_gcc_alpha.hpp" 213 "fetch_add" 32 32 false false [l1; l3; l19; l4; l5; l6; l7; l8] [o0; o9] [o2; o3] ["cc"] None;
Blk Alpha "core_arch_ops_gcc_alpha.hpp" 239 "fetch_sub" 32 32 false false [l1; l3; l20; l4; l5; l6; l7; l8] [o0; o9] [o2; o3] ["cc"] None;
Blk Alpha "core_arch_ops_gcc_alpha.hpp" 265 "fetch_and" 32 32 false false [l1; l3; l21; l4; l5; l6; l7; l8] [o0; o9] [o2; o3] ["cc"] None;
Blk Alpha "core_arch_ops_gcc_alpha.hpp" 291 "fetch_or" 32 32 false false [l1; l3; l22; l4; l5; l6; l7; l8] [o0; o9] [o2; o3] ["cc"] None;
Blk Alpha "core_arch_ops_gcc_alpha.hpp" 317 "fetch_xor" 32 32 false false [l1; l3; l23; l4; l5; l6; l7; l8] [o0; o9] [o2; o3] ["cc"] None;
Blk Alpha "core_arch_ops_gcc_alpha.hpp" 362 "fetch_add" 32 8 false false [l1; l3; l19; l24; l4; l5; l6; l7; l8] [o0; o9] [o2; o3] ["cc"] None;
Blk Alpha "core_arch_ops_gcc_alpha.hpp" 389 "fetch_sub" 32 8 false false [l1; l3; l20; l24; l4; l5; l6; l7; l8] [o0; o9] [o2; o3] ["cc"] None;
Blk Alpha "core_arch_ops_gcc_alpha.hpp" 424 "fetch_add" 32 8 true false [l1; l3; l19; l25; l4; l5; l6; l7; l8] [o0; o9] [o2; o3] ["cc"] None;
Blk Alpha "core_arch_ops_gcc_alpha.hpp" 451 "fetch_sub" 32 8 true false [l1; l3; l20; l25; l4; l5; l6; l7; l8] [o0; o9] [o2; o3] ["cc"] None;
Blk Alpha "core_arch_ops_gcc_alpha.hpp" 487 "fetch_add" 32 16 false false [l1; l3; l19; l26; l4; l5; l6; l7; l8] [o0; o9] [o2; o3] ["cc"] None;
Blk Alpha "core_arch_ops_gcc_alpha.hpp" 514 "fetch_sub" 32 16 false false [l1; l3; l20; l26; l4; l5; l6; l7; l8] [o0; o9] [o2; o3] ["cc"] None;
Blk Alpha "core_arch_ops_gcc_alpha.hpp" 549 "fetch_add" 32 16 true false [l1; l3; l19; l27; l4; l5; l6; l7; l8] [o0; o9] [o2; o3] ["cc"] None;
Blk Alpha "core_arch_ops_gcc_alpha.hpp" 576 "fetch_sub" 32 16 true false [l1; l3; l20; l27; l4; l5; l6; l7; l8] [o0; o9] [o2; o3] ["cc"] None;
Blk Alpha "core_arch_ops_gcc_alpha.hpp" 630 "exchange" 64 64 false false [l1; l2; l28; l29; l5; l6; l7; l8] [o0; o1] [o2; o3] ["cc"] None;
Blk Alpha "core_arch_ops_gcc_alpha.hpp" 658 "compare_exchange_weak" 64 64 false false [l1; l30; l10; l11; l12; l31; l14; l15] [o4; o5; o6; o7] [o2] ["cc"] None;
Blk Alpha "core_arch_ops_gcc_alpha.hpp" 688 "compare_exchange_strong" 64 64 false false [l1; l16; l30; l10; l11; l12; l31; l17; l14; l15; l6; l18; l8] [o4; o1; o6; o7] [o2; o8] ["cc"] None;
Blk Alpha "core_arch_ops_gcc_alpha.hpp" 724 "fetch_add" 64 64 false false [l1; l28; l32; l29; l5; l6; l7; l8] [o0; o9] [o2; o3] ["cc"] None;
Blk Alpha "core_arch_ops_gcc_alpha.hpp" 750 "fetch_sub" 64 64 false false [l1; l28; l33; l29; l5; l6; l7; l8] [o0; o9] [o2; o3] ["cc"] None;
Blk Alpha "core_arch_ops_gcc_alpha.hpp" 776 "fetch_and" 64 64 false false [l1; l28; l21; l29; l5; l6; l7; l8] [o0; o9] [o2; o3] ["cc"] None;
Blk Alpha "core_arch_ops_gcc_alpha.hpp" 802 "fetch_or" 64 64 false false [l1; l28; l22; l29; l5; l6; l7; l8] [o0; o9] [o2; o3] ["cc"] None;
Blk Alpha "core_arch_ops_gcc_alpha.hpp" 828 "fetch_xor" 64 64 false false [l1; l28; l23; l29; l5; l6; l7; l8] [o0; o9] [o2; o3] ["cc"] None].

Definition blocks_powerpc : list block := [
Blk PowerPC "core_arch_ops_gcc_ppc.hpp" 99 "store" 32 32 false false [l115] [o28] [o3] [] None;
Blk PowerPC "core_arch_ops_gcc_ppc.hpp" 111 "load" 32 32 false false [l116] [] [] ["memory"] None;
Blk PowerPC "core_arch_ops_gcc_ppc.hpp" 114 "load" 32 32 false false [l117; l118; l119; l1; l120] [o29] [o2] ["cr0"; "memory"] None;
Blk PowerPC "core_arch_ops_gcc_ppc.hpp" 114 "load" 32 32 false false [l117; l118; l121; l120] [o29] [o2] ["cr0"; "memory"] None;
Blk PowerPC "core_arch_ops_gcc_ppc.hpp" 128 "load" 32 32 false false [l117] [o29] [o2] [] None;
Blk PowerPC "core_arch_ops_gcc_ppc.hpp" 144 "exchange" 32 32 false false [l1; l122; l123; l124] [o30; o31] [o32] ["cr0"] None;
Blk PowerPC "core_arch_ops_gcc_ppc.hpp" 144 "exchange" 32 32 false false [l122; l123; l125] [o30; o31] [o32] ["cr0"] None;
Blk PowerPC "core_arch_ops_gcc_ppc.hpp" 165 "compare_exchange_weak" 32 32 false false [l126; l127; l128; l119; l129; l119; l130; l1] [o33; o34; o31] [o35; o36] ["cr0"] None;
Blk PowerPC "core_arch_ops_gcc_ppc.hpp" 165 "compare_exchange_weak" 32 32 false false [l126; l127; l128; l131; l129; l132; l130] [o33; o34; o31] [o35; o36] ["cr0"] None;
Blk PowerPC "core_arch_ops_gcc_ppc.hpp" 198 "compare_exchange_strong" 32 32 false false [l126; l133; l127; l128; l119; l129; l134; l130; l1] [o33; o34; o31] [o35; o36] ["cr0"] None;
Blk PowerPC "core_arch_ops_gcc_ppc.hpp" 198 "compare_exchange_strong" 32 32 false false [l126; l127; l128; l131; l129; l135; l130] [o33; o34; o31] [o35; o36] ["cr0"] None;
Blk PowerPC "core_arch_ops_gcc_ppc.hpp" 231 "fetch_add" 32 32 false false [l1; l127; l136; l137; l124] [o30; o37; o31] [o32] ["cc"] None;
Blk PowerPC "core_arch_ops_gcc_ppc.hpp" 231 "fetch_add" 32 32 false false [l127; l136; l137; l138] [o30; o37; o31] [o32] ["cc"] None;
Blk PowerPC "core_arch_ops_gcc_ppc.hpp" 252 "fetch_sub" 32 32 false false [l1; l127; l139; l137; l124] [o30; o37; o31] [o32] ["cc"] None;
Blk PowerPC "core_arch_ops_gcc_ppc.hpp" 252 "fetch_sub" 32 32 false false [l127; l139; l137; l138] [o30; o37; o31] [o32] ["cc"] None;
Blk PowerPC "core_arch_ops_gcc_ppc.hpp" 273 "fetch_and" 32 32 false false [l1; l127; l140; l137; l124] [o30; o37; o31] [o32] ["cc"] None;
Blk PowerPC "core_arch_ops_gcc_ppc.hpp" 273 "fetch_and" 32 32 false false [l127; l140; l137; l138] [o30; o37; o31] [o32] ["cc"] None;
Blk PowerPC "core_arch_ops_gcc_ppc.hpp" 294 "fetch_or" 32 32 false false [l1; l127; l141; l137; l124] [o30; o37; o31] [o32] ["cc"] None;
Blk PowerPC "core_arch_ops_gcc_ppc.hpp" 294 "fetch_or" 32 32 false false [l127; l141; l137; l138] [o30; o37; o31] [o32] ["cc"] None;
Blk PowerPC "core_arch_ops_gcc_ppc.hpp" 315 "fetch_xor" 32 32 false false [l1; l127; l142; l137; l124] [o30; o37; o31] [o32] ["cc"] None;
Blk PowerPC "core_arch_ops_gcc_ppc.hpp" 315 "fetch_xor" 32 32 false false [l127; l142; l137; l138] [o30; o37; o31] [o32] ["cc"] None;
Blk PowerPC "core_arch_ops_gcc_ppc.hpp" 359 "store" 8 8 false false [l143] [o28] [o3] [] None;
Blk PowerPC "core_arch_ops_gcc_ppc.hpp" 371 "load" 8 8 false false [l116] [] [] ["memory"] None;
Blk PowerPC "core_arch_ops_gcc_ppc.hpp" 374 "load" 8 8 false false [l144; l118; l119; l1; l120] [o29] [o2] ["cr0"; "memory"] None;
Blk PowerPC "core_arch_ops_gcc_ppc.hpp" 374 "load" 8 8 false false [l144; l118; l121; l120] [o29] [o2] ["cr0"; "memory"] None;
Blk PowerPC "core_arch_ops_gcc_ppc.hpp" 388 "load" 8 8 false false [l144] [o29] [o2] [] None;
Blk PowerPC "core_arch_ops_gcc_ppc.hpp" 404 "exchange" 8 8 false false [l1; l145; l146; l124] [o30; o31] [o32] ["cr0"] None;
Blk PowerPC "core_arch_ops_gcc_ppc.hpp" 404 "exchange" 8 8 false false [l145; l146; l125] [o30; o31] [o32] ["cr0"] None;
Blk PowerPC "core_arch_ops_gcc_ppc.hpp" 425 "compare_exchange_weak" 8 8 false false [l126; l147; l128; l119; l148; l119; l130; l1] [o33; o34; o31] [o35; o36] ["cr0"] None;
Blk PowerPC "core_arch_ops_gcc_ppc.hpp" 425 "compare_exchange_weak" 8 8 false false [l126; l147; l128; l131; l148; l132; l130] [o33; o34; o31] [o35; o36] ["cr0"] None;
Blk PowerPC "core_arch_ops_gcc_ppc.hpp" 458 "compare_exchange_strong" 8 8 false false [l126; l133; l147; l128; l119; l148; l134; l130; l1] [o33; o34; o31] [o35; o36] ["cr0"] None;
Blk PowerPC "core_arch_ops_gcc_ppc.hpp" 458 "compare_exchange_strong" 8 8 false false [l126; l147; l128; l131; l148; l135; l130] [o33; o34; o31] [o35; o36] ["cr0"] None;
Blk PowerPC "core_arch_ops_gcc_ppc.hpp" 491 "fetch_add" 8 8 false false [l1; l147; l136; l149; l124] [o30; o37; o31] [o32] ["cc"] None;
Blk PowerPC "core_arch_ops_gcc_ppc.hpp" 491 "fetch_add" 8 8 false false [l147; l136; l149; l138] [o30; o37; o31] [o32] ["cc"] None;
Blk PowerPC "core_arch_ops_gcc_ppc.hpp" 512 "fetch_sub" 8 8 false false [l1; l147; l139; l149; l124] [o30; o37; o31] [o32] ["cc"] None;
Blk PowerPC "core_arch_ops_gcc_ppc.hpp" 512 "fetch_sub" 8 8 false false [l147; l139; l149; l138] [o30; o37; o31] [o32] ["cc"] None;
Blk PowerPC "core_arch_ops_gcc_ppc.hpp" 533 "fetch_and" 8 8 false false [l1; l147; l140; l149; l124] [o30; o37; o31] [o32] ["cc"] None;
Blk PowerPC "core_arch_ops_gcc_ppc.hpp" 533 "fetch_and" 8 8 false false [l147; l140; l149; l138] [o30; o37; o31] [o32] ["cc"] None;
Blk PowerPC "core_arch_ops_gcc_ppc.hpp" 554 "fetch_or" 8 8 false false [l1; l147; l141; l149; l124] [o30; o37; o31] [o32] ["cc"] None;
Blk PowerPC "core_arch_ops_gcc_ppc.hpp" 554 "fetch_or" 8 8 false false [l147; l141; l149; l138] [o30; o37; o31] [o32] ["cc"] None;
Blk PowerPC "core_arch_ops_gcc_ppc.hpp" 575 "fetch_xor" 8 8 false false [l1; l147; l142; l149; l124] [o30; o37; o31] [o32] ["cc"] None;
Blk PowerPC "core_arch_ops_gcc_ppc.hpp" 575 "fetch_xor" 8 8 false false [l147; l142; l149; l138] [o30; o37; o31] [o32] ["cc"] None;
Blk PowerPC "core_arch_ops_gcc_ppc.hpp" 616 "fetch_add" 32 8 false false [l1; l127; l136; l150; l137; l124] [o30; o37; o31] [o32] ["cc"] None;
Blk PowerPC "core_arch_ops_gcc_ppc.hpp" 616 "fetch_add" 32 8 false false [l127; l136; l150; l137; l135] [o30; o37; o31] [o32] ["cc"] None;
Blk PowerPC "core_arch_ops_gcc_ppc.hpp" 638 "fetch_sub" 32 8 false false [l1; l127; l139; l150; l137; l124] [o30; o37; o31] [o32] ["cc"] None;
Blk PowerPC "core_arch_ops_gcc_ppc.hpp" 638 "fetch_sub" 32 8 false false [l127; l139; l150; l137; l135] [o30; o37; o31] [o32] ["cc"] None;
Blk PowerPC "core_arch_ops_gcc_ppc.hpp" 668 "fetch_add" 32 8 true false [l1; l127; l136; l151; l137; l124] [o30; o37; o31] [o32] ["cc"] None;
Blk PowerPC "core_arch_ops_gcc_ppc.hpp" 668 "fetch_add" 32 8 true false [l127; l136; l151; l137; l135] [o30; o37; o31] [o32] ["cc"] None;
Blk PowerPC "core_arch_ops_gcc_ppc.hpp" 690 "fetch_sub" 32 8 true false [l1; l127; l139; l151; l137; l124] [o30; o37; o31] [o32] ["cc"] None;
Blk PowerPC "core_arch_ops_gcc_ppc.hpp" 690 "fetch_sub" 32 8 true false [l127; l139; l151; l137; l135] [o30; o37; o31] [o32] ["cc"] None;
Blk PowerPC "core_arch_ops_gcc_ppc.hpp" 727 "store" 16 16 false false [l152] [o28] [o3] [] None;
Blk PowerPC "core_arch_ops_gcc_ppc.hpp" 739 "load" 16 16 false false [l116] [] [] ["memory"] None;
Blk PowerPC "core_arch_ops_gcc_ppc.hpp" 742 "load" 16 16 false false [l153; l118; l119; l1; l120] [o29] [o2] ["cr0"; "memory"] None;
Blk PowerPC "core_arch_ops_gcc_ppc.hpp" 742 "load" 16 16 false false [l153; l118; l121; l120] [o29] [o2] ["cr0"; "memory"] None;
Blk PowerPC "core_arch_ops_gcc_ppc.hpp" 756 "load" 16 16 false false [l153] [o29] [o2] [] None;
Blk PowerPC "core_arch_ops_gcc_ppc.hpp" 772 "exchange" 16 16 false false [l1; l154; l155; l124] [o30; o31] [o32] ["cr0"] None;
Blk PowerPC "core_arch_ops_gcc_ppc.hpp" 772 "exchange" 16 16 false false [l154; l155; l125] [o30; o31] [o32] ["cr0"] None;
Blk PowerPC "core_arch_ops_gcc_ppc.hpp" 793 "compare_exchange_weak" 16 16 false false [l126; l156; l128; l119; l157; l119; l130; l1] [o33; o34; o31] [o35; o36] ["cr0"] None;
Blk PowerPC "core_arch_ops_gcc_ppc.hpp" 793 "compare_exchange_weak" 16 16 false false [l126; l156; l128; l131; l157; l132; l130] [o33; o34; o31] [o35; o36] ["cr0"] None;
Blk PowerPC "core_arch_ops_gcc_ppc.hpp" 826 "compare_exchange_strong" 16 16 false false [l126; l133; l156; l128; l119; l157; l134; l130; l1] [o33; o34; o31] [o35; o36] ["cr0"] None;
Blk PowerPC "core_arch_ops_gcc_ppc.hpp" 826 "compare_exchange_strong" 16 16 false false [l126; l156; l128; l131; l157; l135; l130] [o33; o34; o31] [o35; o36] ["cr0"] None;
Blk PowerPC "core_arch_ops_gcc_ppc.hpp" 859 "fetch_add" 16 16 false false [l1; l156; l136; l158; l124] [o30; o37; o31] [o32] ["cc"] None;
Blk PowerPC "core_arch_ops_gcc_ppc.hpp" 859 "fetch_add" 16 16 false false [l156; l136; l158; l138] [o30; o37; o31] [o32] ["cc"] None;
Blk PowerPC "core_arch_ops_gcc_ppc.hpp" 880 "fetch_sub" 16 16 false false [l1; l156; l139; l158; l124] [o30; o37; o31] [o32] ["cc"] None;
Blk PowerPC "core_arch_ops_gcc_ppc.hpp" 880 "fetch_sub" 16 16 false false [l156; l139; l158; l138] [o30; o37; o31] [o32] ["cc"] None;
Blk PowerPC "core_arch_ops_gcc_ppc.hpp" 901 "fetch_and" 16 16 false false [l1; l156; l140; l158; l124] [o30; o37; o31] [o32] ["cc"] None;
Blk PowerPC "core_arch_ops_gcc_ppc.hpp" 901 "fetch_and" 16 16 false false [l156; l140; l158; l138] [o30; o37; o31] [o32] ["cc"] None;
Blk PowerPC "core_arch_ops_gcc_ppc.hpp" 922 "fetch_or" 16 16 false false [l1; l156; l141; l158; l124] [o30; o37; o31] [o32] ["cc"] None;
Blk PowerPC "core_arch_ops_gcc_ppc.hpp" 922 "fetch_or" 16 16 false false [l156; l141; l158; l138] [o30; o37; o31] [o32] ["cc"] None;
Blk PowerPC "core_arch_ops_gcc_ppc.hpp" 943 "fetch_xor" 16 16 false false [l1; l156; l142; l158; l124] [o30; o37; o31] [o32] ["cc"] None;
Blk PowerPC "core_arch_ops_gcc_ppc.hpp" 943 "fetch_xor" 16 16 false false [l156; l142; l158; l138] [o30; o37; o31] [o32] ["cc"] None;
Blk PowerPC "core_arch_ops_gcc_ppc.hpp" 984 "fetch_add" 32 16 false false [l1; l127; l136; l159; l137; l124] [o30; o37; o31] [o32] ["cc"] None;
Blk PowerPC "core_arch_ops_gcc_ppc.hpp" 984 "fetch_add" 32 16 false false [l127; l136; l159; l137; l135] [o30; o37; o31] [o32] ["cc"] None;
Blk PowerPC "core_arch_ops_gcc_ppc.hpp" 1006 "fetch_sub" 32 16 false false [l1; l127; l139; l159; l137; l124] [o30; o37; o31] [o32] ["cc"] None;
Blk PowerPC "core_arch_ops_gcc_ppc.hpp" 1006 "fetch_sub" 32 16 false false [l127; l139; l159; l137; l135] [o30; o37; o31] [o32] ["cc"] None;
Blk PowerPC "core_arch_ops_gcc_ppc.hpp" 1036 "fetch_add" 32 16 true false [l1; l127; l136; l160; l137; l124] [o30; o37; o31] [o32] ["cc"] None;
Blk PowerPC "core_arch_ops_gcc_ppc.hpp" 1036 "fetch_add" 32 16 true false [l127; l136; l160; l137; l135] [o30; o37; o31] [o32] ["cc"] None;
Blk PowerPC "core_arch_ops_gcc_ppc.hpp" 1058 "fetch_sub" 32 16 true false [l1; l127; l139; l160; l137; l124] [o30; o37; o31] [o32] ["cc"] None;
Blk PowerPC "core_arch_ops_gcc_ppc.hpp" 1058 "fetch_sub" 32 16 true false [l127; l139; l160; l137; l135] [o30; o37; o31] [o32] ["cc"] None;
Blk PowerPC "core_arch_ops_gcc_ppc.hpp" 1095 "store" 64 64 false false [l161] [o28] [o3] [] None;
Blk PowerPC "core_arch_ops_gcc_ppc.hpp" 1107 "load" 64 64 false false [l116] [] [] ["memory"] None;
Blk PowerPC "core_arch_ops_gcc_ppc.hpp" 1110 "load" 64 64 false false [l162; l163; l119; l1; l120] [o38] [o2] ["cr0"; "memory"] None;
Blk PowerPC "core_arch_ops_gcc_ppc.hpp" 1110 "load" 64 64 false false [l162; l163; l121; l120] [o38] [o2] ["cr0"; "memory"] None;
Blk PowerPC "core_arch_ops_gcc_ppc.hpp" 1124 "load" 64 64 false false [l162] [o38] [o2] [] None;
Blk PowerPC "core_arch_ops_gcc_ppc.hpp" 1140 "exchange" 64 64 false false [l1; l164; l165; l124] [o30; o31] [o32] ["cr0"] None;
Blk PowerPC "core_arch_ops_gcc_ppc.hpp" 1140 "exchange" 64 64 false false [l164; l165; l125] [o30; o31] [o32] ["cr0"] None;
Blk PowerPC "core_arch_ops_gcc_ppc.hpp" 1161 "compare_exchange_weak" 64 64 false false [l126; l166; l167; l119; l168; l119; l130; l1] [o33; o34; o31] [o35; o36] ["cr0"] None;
Blk PowerPC "core_arch_ops_gcc_ppc.hpp" 1161 "compare_exchange_weak" 64 64 false false [l126; l166; l167; l131; l168; l132; l130] [o33; o34; o31] [o35; o36] ["cr0"] None;
Blk PowerPC "core_arch_ops_gcc_ppc.hpp" 1194 "compare_exchange_strong" 64 64 false false [l126; l133; l166; l167; l119; l168; l134; l130; l1] [o33; o34; o31] [o35; o36] ["cr0"] None;
Blk PowerPC "core_arch_ops_gcc_ppc.hpp" 1194 "compare_exchange_strong" 64 64 false false [l126; l166; l167; l131; l168; l135; l130] [o33; o34; o31] [o35; o36] ["cr0"] None;
Blk PowerPC "core_arch_ops_gcc_ppc.hpp" 1227 "fetch_add" 64 64 false false [l1; l166; l136; l169; l124] [o30; o37; o31] [o32] ["cc"] None;
Blk PowerPC "core_arch_ops_gcc_ppc.hpp" 1227 "fetch_add" 64 64 false false [l166; l136; l169; l138] [o30; o37; o31] [o32] ["cc"] None;
Blk PowerPC "core_arch_ops_gcc_ppc.hpp" 1248 "fetch_sub" 64 64 false false [l1; l166; l139; l169; l124] [o30; o37; o31] [o32] ["cc"] None;
Blk PowerPC "core_arch_ops_gcc_ppc.hpp" 1248 "fetch_sub" 64 64 false false [l166; l139; l169; l138] [o30; o37; o31] [o32] ["cc"] None;
Blk PowerPC "core_arch_ops_gcc_ppc.hpp" 1269 "fetch_and" 64 64 false false [l1; l166; l140; l169; l124] [o30; o37; o31] [o32] ["cc"] None;
Blk PowerPC "core_arch_ops_gcc_ppc.hpp" 1269 "fetch_and" 64 64 false false [l166; l140; l169; l138] [o30; o37; o31] [o32] ["cc"] None;
Blk PowerPC "core_arch_ops_gcc_ppc.hpp" 1290 "fetch_or" 64 64 false false [l1; l166; l141; l169; l124] [o30; o37; o31] [o32] ["cc"] None;
Blk PowerPC "core_arch_ops_gcc_ppc.hpp" 1290 "fetch_or" 64 64 false false [l166; l141; l169; l138] [o30; o37; o31] [o32] ["cc"] None;
Blk PowerPC "core_arch_ops_gcc_ppc.hpp" 1311 "fetch_xor" 64 64 false false [l1; l166; l142; l169; l124] [o30; o37; o31] [o32] ["cc"] None;
Blk PowerPC "core_arch_ops_gcc_ppc.hpp" 1311 "fetch_xor" 64 64 false false [l166; l142; l169; l138] [o30; o37; o31] [o32] ["cc"] None;
Blk PowerPC "extra_ops_gcc_ppc.hpp" 106 "fetch_negate" 8 8 false false [l1; l147; l511; l149; l124] [o30; o37; o31] [] ["cc"] None;
Blk PowerPC "extra_ops_gcc_ppc.hpp" 106 "fetch_negate" 8 8 false false [l147; l511; l149; l138] [o30; o37; o31] [] ["cc"] None;
Blk PowerPC "extra_ops_gcc_ppc.hpp" 127 "negate" 8 8 false false [l1; l147; l511; l149; l124] [o30; o37; o31] [] ["cc"] None;
Blk PowerPC "extra_ops_gcc_ppc.hpp" 127 "negate" 8 8 false false [l147; l511; l149; l138] [o30; o37; o31] [] ["cc"] None;
Blk PowerPC "extra_ops_gcc_ppc.hpp" 148 "add" 8 8 false false [l1; l147; l136; l149; l124] [o30; o37; o31] [o32] ["cc"] None;
Blk PowerPC "extra_ops_gcc_ppc.hpp" 148 "add" 8 8 false false [l147; l136; l149; l138] [o30; o37; o31] [o32] ["cc"] None;
Blk PowerPC "extra_ops_gcc_ppc.hpp" 169 "sub" 8 8 false false [l1; l147; l139; l149; l124] [o30; o37; o31] [o32] ["cc"] None;
Blk PowerPC "extra_ops_gcc_ppc.hpp" 169 "sub" 8 8 false false [l147; l139; l149; l138] [o30; o37; o31] [o32] ["cc"] None;
Blk PowerPC "extra_ops_gcc_ppc.hpp" 190 "bitwise_and" 8 8 false false [l1; l147; l140; l149; l124] [o30; o37; o31] [o32] ["cc"] None;
Blk PowerPC "extra_ops_gcc_ppc.hpp" 190 "bitwise_and" 8 8 false false [l147; l140; l149; l138] [o30; o37; o31] [o32] ["cc"] None;
Blk PowerPC "extra_ops_gcc_ppc.hpp" 211 "bitwise_or" 8 8 false false [l1; l147; l141; l149; l124] [o30; o37; o31] [o32] ["cc"] None;
Blk PowerPC "extra_ops_gcc_ppc.hpp" 211 "bitwise_or" 8 8 false false [l147; l141; l149; l138] [o30; o37; o31] [o32] ["cc"] None;
Blk PowerPC "extra_ops_gcc_ppc.hpp" 232 "bitwise_xor" 8 8 false false [l1; l147; l142; l149; l124] [o30; o37; o31] [o32] ["cc"] None;
Blk PowerPC "extra_ops_gcc_ppc.hpp" 232 "bitwise_xor" 8 8 false false [l147; l142; l149; l138] [o30; o37; o31] [o32] ["cc"] None;
Blk PowerPC "extra_ops_gcc_ppc.hpp" 253 "fetch_complement" 8 8 false false [l1; l147; l512; l149; l124] [o30; o37; o31] [] ["cc"] None;
Blk PowerPC "extra_ops_gcc_ppc.hpp" 253 "fetch_complement" 8 8 false false [l147; l512; l149; l138] [o30; o37; o31] [] ["cc"] None;
Blk PowerPC "extra_ops_gcc_ppc.hpp" 274 "bitwise_complement" 8 8 false false [l1; l147; l512; l149; l124] [o30; o37; o31] [] ["cc"] None;
Blk PowerPC "extra_ops_gcc_ppc.hpp" 274 "bitwise_complement" 8 8 false false [l147; l512; l149; l138] [o30; o37; o31] [] ["cc"] None;
Blk PowerPC "extra_ops_gcc_ppc.hpp" 313 "fetch_negate" 16 16 false false [l1; l156; l511; l158; l124] [o30; o37; o31] [] ["cc"] None;
Blk PowerPC "extra_ops_gcc_ppc.hpp" 313 "fetch_negate" 16 16 false false [l156; l511; l158; l138] [o30; o37; o31] [] ["cc"] None;
Blk PowerPC "extra_ops_gcc_ppc.hpp" 334 "negate" 16 16 false false [l1; l156; l511; l158; l124] [o30; o37; o31] [] ["cc"] None;
Blk PowerPC "extra_ops_gcc_ppc.hpp" 334 "negate" 16 16 false false [l156; l511; l158; l138] [o30; o37; o31] [] ["cc"] None;
Blk PowerPC "extra_ops_gcc_ppc.hpp" 355 "add" 16 16 false false [l1; l156; l136; l158; l124] [o30; o37; o31] [o32] ["cc"] None;
Blk PowerPC "extra_ops_gcc_ppc.hpp" 355 "add" 16 16 false false [l156; l136; l158; l138] [o30; o37; o31] [o32] ["cc"] None;
Blk PowerPC "extra_ops_gcc_ppc.hpp" 376 "sub" 16 16 false false [l1; l156; l139; l158; l124] [o30; o37; o31] [o32] ["cc"] None;
Blk PowerPC "extra_ops_gcc_ppc.hpp" 376 "sub" 16 16 false false [l156; l139; l158; l138] [o30; o37; o31] [o32] ["cc"] None;
Blk PowerPC "extra_ops_gcc_ppc.hpp" 397 "bitwise_and" 16 16 false false [l1; l156; l140; l158; l124] [o30; o37; o31] [o32] ["cc"] None;
Blk PowerPC "extra_ops_gcc_ppc.hpp" 397 "bitwise_and" 16 16 false false [l156; l140; l158; l138] [o30; o37; o31] [o32] ["cc"] None;
Blk PowerPC "extra_ops_gcc_ppc.hpp" 418 "bitwise_or" 16 16 false false [l1; l156; l141; l158; l124] [o30; o37; o31] [o32] ["cc"] None;
Blk PowerPC "extra_ops_gcc_ppc.hpp" 418 "bitwise_or" 16 16 false false [l156; l141; l158; l138] [o30; o37; o31] [o32] ["cc"] None;
Blk PowerPC "extra_ops_gcc_ppc.hpp" 439 "bitwise_xor" 16 16 false false [l1; l156; l142; l158; l124] [o30; o37; o31] [o32] ["cc"] None;
Blk PowerPC "extra_ops_gcc_ppc.hpp" 439 "bitwise_xor" 16 16 false false [l156; l142; l158; l138] [o30; o37; o31] [o32] ["cc"] None;
Blk PowerPC "extra_ops_gcc_ppc.hpp" 460 "fetch_complement" 16 16 false false [l1; l156; l512; l158; l124] [o30; o37; o31] [] ["cc"] None;
Blk PowerPC "extra_ops_gcc_ppc.hpp" 460 "fetch_complement" 16 16 false false [l156; l512; l158; l138] [o30; o37; o31] [] ["cc"] None;
Blk PowerPC "extra_ops_gcc_ppc.hpp" 481 "bitwise_complement" 16 16 false false [l1; l156; l512; l158; l124] [o30; o37; o31] [] ["cc"] None;
Blk PowerPC "extra_ops_gcc_ppc.hpp" 481 "bitwise_complement" 16 16 false false [l156; l512; l158; l138] [o30; o37; o31] [] ["cc"] None;
Blk PowerPC "extra_ops_gcc_ppc.hpp" 512 "fetch_negate" 32 32 false false [l1; l127; l511; l137; l124] [o30; o37; o31] [] ["cc"] None;
Blk PowerPC "extra_ops_gcc_ppc.hpp" 512 "fetch_negate" 32 32 false false [l127; l511; l137; l138] [o30; o37; o31] [] ["cc"] None;
Blk PowerPC "extra_ops_gcc_ppc.hpp" 533 "negate" 32 32 false false [l1; l127; l511; l137; l124] [o30; o37; o31] [] ["cc"] None;
Blk PowerPC "extra_ops_gcc_ppc.hpp" 533 "negate" 32 32 false false [l127; l511; l137; l138] [o30; o37; o31] [] ["cc"] None;
Blk PowerPC "extra_ops_gcc_ppc.hpp" 554 "add" 32 32 false false [l1; l127; l136; l137; l124] [o30; o37; o31] [o32] ["cc"] None;
Blk PowerPC "extra_ops_gcc_ppc.hpp" 554 "add" 32 32 false false [l127; l136; l137; l138] [o30; o37; o31] [o32] ["cc"] None;
Blk PowerPC "extra_ops_gcc_ppc.hpp" 575 "sub" 32 32 false false [l1; l127; l139; l137; l124] [o30; o37; o31] [o32] ["cc"] None;
Blk PowerPC "extra_ops_gcc_ppc.hpp" 575 "sub" 32 32 false false [l127; l139; l137; l138] [o30; o37; o31] [o32] ["cc"] None;
Blk PowerPC "extra_ops_gcc_ppc.hpp" 596 "bitwise_and" 32 32 false false [l1; l127; l140; l137; l124] [o30; o37; o31] [o32] ["cc"] None;
Blk PowerPC "extra_ops_gcc_ppc.hpp" 596 "bitwise_and" 32 32 false false [l127; l140; l137; l138] [o30; o37; o31] [o32] ["cc"] None;
Blk PowerPC "extra_ops_gcc_ppc.hpp" 617 "bitwise_or" 32 32 false false [l1; l127; l141; l137; l124] [o30; o37; o31] [o32] ["cc"] None;
Blk PowerPC "extra_ops_gcc_ppc.hpp" 617 "bitwise_or" 32 32 false false [l127; l141; l137; l138] [o30; o37; o31] [o32] ["cc"] None;
Blk PowerPC "extra_ops_gcc_ppc.hpp" 638 "bitwise_xor" 32 32 false false [l1; l127; l142; l137; l124] [o30; o37; o31] [o32] ["cc"] None;
Blk PowerPC "extra_ops_gcc_ppc.hpp" 638 "bitwise_xor" 32 32 false false [l127; l142; l137; l138] [o30; o37; o31] [o32] ["cc"] None;
Blk PowerPC "extra_ops_gcc_ppc.hpp" 659 "fetch_complement" 32 32 false false [l1; l127; l512; l137; l124] [o30; o37; o31] [] ["cc"] None;
Blk PowerPC "extra_ops_gcc_ppc.hpp" 659 "fetch_complement" 32 32 false false [l127; l512; l137; l138] [o30; o37; o31] [] ["cc"] None;
Blk PowerPC "extra_ops_gcc_ppc.hpp" 680 "bitwise_complement" 32 32 false false [l1; l127; l512; l137; l124] [o30; o37; o31] [] ["cc"] None;
Blk PowerPC "extra_ops_gcc_ppc.hpp" 680 "bitwise_complement" 32 32 false false [l127; l512; l137; l138] [o30; o37; o31] [] ["cc"] None;
Blk PowerPC "extra_ops_gcc_ppc.hpp" 717 "fetch_negate" 64 64 false false [l1; l166; l511; l169; l124] [o30; o37; o31] [] ["cc"] None;
Blk PowerPC "extra_ops_gcc_ppc.hpp" 717 "fetch_negate" 64 64 false false [l166; l511; l169; l138] [o30; o37; o31] [] ["cc"] None;
Blk PowerPC "extra_ops_gcc_ppc.hpp" 738 "negate" 64 64 false false [l1; l166; l511; l169; l124] [o30; o37; o31] [] ["cc"] None;
Blk PowerPC "extra_ops_gcc_ppc.hpp" 738 "negate" 64 64 false false [l166; l511; l169; l138] [o30; o37; o31] [] ["cc"] None;
Blk PowerPC "extra_ops_gcc_ppc.hpp" 759 "add" 64 64 false false [l1; l166; l136; l169; l124] [o30; o37; o31] [o32] ["cc"] None;
Blk PowerPC "extra_ops_gcc_ppc.hpp" 759 "add" 64 64 false false [l166; l136; l169; l138] [o30; o37; o31] [o32] ["cc"] None;
Blk PowerPC "extra_ops_gcc_ppc.hpp" 780 "sub" 64 64 false false [l1; l166; l139; l169; l124] [o30; o37; o31] [o32] ["cc"] None;
Blk PowerPC "extra_ops_gcc_ppc.hpp" 780 "sub" 64 64 false false [l166; l139; l169; l138] [o30; o37; o31] [o32] ["cc"] None;
Blk PowerPC "extra_ops_gcc_ppc.hpp" 801 "bitwise_and" 64 64 false false [l1; l166; l140; l169; l124] [o30; o37; o31] [o32] ["cc"] None;
Blk PowerPC "extra_ops_gcc_ppc.hpp" 801 "bitwise_and" 64 64 false false [l166; l140; l169; l138] [o30; o37; o31] [o32] ["cc"] None;
Blk PowerPC "extra_ops_gcc_ppc.hpp" 822 "bitwise_or" 64 64 false false [l1; l166; l141; l169; l124] [o30; o37; o31] [o32] ["cc"] None;
Blk PowerPC "extra_ops_gcc_ppc.hpp" 822 "bitwise_or" 64 64 false false [l166; l141; l169; l138] [o30; o37; o31] [o32] ["cc"] None;
Blk PowerPC "extra_ops_gcc_ppc.hpp" 843 "bitwise_xor" 64 64 false false [l1; l166; l142; l169; l124] [o30; o37; o31] [o32] ["cc"] None;
Blk PowerPC "extra_ops_gcc_ppc.hpp" 843 "bitwise_xor" 64 64 false false [l166; l142; l169; l138] [o30; o37; o31] [o32] ["cc"] None;
Blk PowerPC "extra_ops_gcc_ppc.hpp" 864 "fetch_complement" 64 64 false false [l1; l166; l512; l169; l124] [o30; o37; o31] [] ["cc"] None;
Blk PowerPC "extra_ops_gcc_ppc.hpp" 864 "fetch_complement" 64 64 false false [l166; l512; l169; l138] [o30; o37; o31] [] ["cc"] None;
Blk PowerPC "extra_ops_gcc_ppc.hpp" 885 "bitwise_complement" 64 64 false false [l1; l166; l512; l169; l124] [o30; o37; o31] [] ["cc"] None;
Blk PowerPC "extra_ops_gcc_ppc.hpp" 885 "bitwise_complement" 64 64 false false [l166; l512; l169; l138] [o30; o37; o31] [] ["cc"] None].

Definition blocks_arm : list block := [
Blk Arm "core_arch_ops_gcc_arm.hpp" 89 "exchange" 32 32 false false [l1; l34; l35; l36; l37] [o10; o11; o12] [o13] ["cc"] None;
Blk Arm "core_arch_ops_gcc_arm.hpp" 115 "compare_exchange_weak" 32 32 false false [l38; l39; l40; l41; l42] [o11; o14; o10; o12] [o15; o16] ["cc"] None;
Blk Arm "core_arch_ops_gcc_arm.hpp" 115 "compare_exchange_weak" 32 32 false false [l38; l39; l40; l41; l42] [o11; o14; o12] [o15; o16] ["cc"] None;
Blk Arm "core_arch_ops_gcc_arm.hpp" 151 "compare_exchange_strong" 32 32 false false [l1; l38; l39; l43; l44; l45; l46; l15] [o11; o14; o10; o12] [o15; o16] ["cc"] None;
Blk Arm "core_arch_ops_gcc_arm.hpp" 151 "compare_exchange_strong" 32 32 false false [l1; l38; l39; l43; l44; l45; l46; l15] [o11; o14; o12] [o15; o16] ["cc"] None;
Blk Arm "core_arch_ops_gcc_arm.hpp" 186 "fetch_add" 32 32 false false [l1; l38; l47; l48; l49; l50] [o11; o17; o10; o12] [o18] ["cc"] None;
Blk Arm "core_arch_ops_gcc_arm.hpp" 212 "fetch_sub" 32 32 false false [l1; l38; l51; l48; l49; l50] [o11; o17; o10; o12] [o18] ["cc"] None;
Blk Arm "core_arch_ops_gcc_arm.hpp" 238 "fetch_and" 32 32 false false [l1; l38; l52; l48; l49; l50] [o11; o17; o10; o12] [o18] ["cc"] None;
Blk Arm "core_arch_ops_gcc_arm.hpp" 264 "fetch_or" 32 32 false false [l1; l38; l53; l48; l49; l50] [o11; o17; o10; o12] [o18] ["cc"] None;
Blk Arm "core_arch_ops_gcc_arm.hpp" 290 "fetch_xor" 32 32 false false [l1; l38; l54; l48; l49; l50] [o11; o17; o10; o12] [o18] ["cc"] None;
Blk Arm "core_arch_ops_gcc_arm.hpp" 355 "exchange" 8 8 false false [l1; l55; l56; l57; l58] [o10; o19; o12] [o13] ["cc"] None;
Blk Arm "core_arch_ops_gcc_arm.hpp" 381 "compare_exchange_weak" 8 8 false false [l59; l60; l61; l62; l63] [o19; o14; o10; o12] [o20; o16] ["cc"] None;
Blk Arm "core_arch_ops_gcc_arm.hpp" 381 "compare_exchange_weak" 8 8 false false [l59; l60; l61; l62; l63] [o19; o14; o12] [o20; o16] ["cc"] None;
Blk Arm "core_arch_ops_gcc_arm.hpp" 417 "compare_exchange_strong" 8 8 false false [l1; l59; l60; l64; l65; l66; l67; l15] [o19; o14; o10; o12] [o20; o16] ["cc"] None;
Blk Arm "core_arch_ops_gcc_arm.hpp" 417 "compare_exchange_strong" 8 8 false false [l1; l59; l60; l64; l65; l66; l67; l15] [o19; o14; o12] [o20; o16] ["cc"] None;
Blk Arm "core_arch_ops_gcc_arm.hpp" 452 "fetch_add" 8 8 false false [l1; l59; l68; l69; l70; l71] [o19; o21; o10; o12] [o18] ["cc"] None;
Blk Arm "core_arch_ops_gcc_arm.hpp" 478 "fetch_sub" 8 8 false false [l1; l59; l72; l69; l70; l71] [o19; o21; o10; o12] [o18] ["cc"] None;
Blk Arm "core_arch_ops_gcc_arm.hpp" 504 "fetch_and" 8 8 false false [l1; l59; l73; l69; l70; l71] [o19; o21; o10; o12] [o18] ["cc"] None;
Blk Arm "core_arch_ops_gcc_arm.hpp" 530 "fetch_or" 8 8 false false [l1; l59; l74; l69; l70; l71] [o19; o21; o10; o12] [o18] ["cc"] None;
Blk Arm "core_arch_ops_gcc_arm.hpp" 556 "fetch_xor" 8 8 false false [l1; l59; l75; l69; l70; l71] [o19; o21; o10; o12] [o18] ["cc"] None;
Blk Arm "core_arch_ops_gcc_arm.hpp" 602 "fetch_add" 32 8 false false [l1; l38; l47; l76; l48; l49; l50] [o11; o17; o10; o12] [o18] ["cc"] None;
Blk Arm "core_arch_ops_gcc_arm.hpp" 629 "fetch_sub" 32 8 false false [l1; l38; l51; l76; l48; l49; l50] [o11; o17; o10; o12] [o18] ["cc"] None;
Blk Arm "core_arch_ops_gcc_arm.hpp" 664 "fetch_add" 32 8 true false [l1; l38; l47; l77; l48; l49; l50] [o11; o17; o10; o12] [o18] ["cc"] None;
Blk Arm "core_arch_ops_gcc_arm.hpp" 691 "fetch_sub" 32 8 true false [l1; l38; l51; l77; l48; l49; l50] [o11; o17; o10; o12] [o18] ["cc"] None;
Blk Arm "core_arch_ops_gcc_arm.hpp" 749 "exchange" 16 16 false false [l1; l78; l79; l57; l58] [o10; o19; o12] [o13] ["cc"] None;
Blk Arm "core_arch_ops_gcc_arm.hpp" 775 "compare_exchange_weak" 16 16 false false [l80; l60; l61; l81; l63] [o19; o14; o10; o12] [o20; o16] ["cc"] None;
Blk Arm "core_arch_ops_gcc_arm.hpp" 775 "compare_exchange_weak" 16 16 false false [l80; l60; l61; l81; l63] [o19; o14; o12] [o20; o16] ["cc"] None;
Blk Arm "core_arch_ops_gcc_arm.hpp" 811 "compare_exchange_strong" 16 16 false false [l1; l80; l60; l64; l82; l66; l67; l15] [o19; o14; o10; o12] [o20; o16] ["cc"] None;
Blk Arm "core_arch_ops_gcc_arm.hpp" 811 "compare_exchange_strong" 16 16 false false [l1; l80; l60; l64; l82; l66; l67; l15] [o19; o14; o12] [o20; o16] ["cc"] None;
Blk Arm "core_arch_ops_gcc_arm.hpp" 846 "fetch_add" 16 16 false false [l1; l80; l68; l83; l70; l71] [o19; o21; o10; o12] [o18] ["cc"] None;
Blk Arm "core_arch_ops_gcc_arm.hpp" 872 "fetch_sub" 16 16 false false [l1; l80; l72; l83; l70; l71] [o19; o21; o10; o12] [o18] ["cc"] None;
Blk Arm "core_arch_ops_gcc_arm.hpp" 898 "fetch_and" 16 16 false false [l1; l80; l73; l83; l70; l71] [o19; o21; o10; o12] [o18] ["cc"] None;
Blk Arm "core_arch_ops_gcc_arm.hpp" 924 "fetch_or" 16 16 false false [l1; l80; l74; l83; l70; l71] [o19; o21; o10; o12] [o18] ["cc"] None;
Blk Arm "core_arch_ops_gcc_arm.hpp" 950 "fetch_xor" 16 16 false false [l1; l80; l75; l83; l70; l71] [o19; o21; o10; o12] [o18] ["cc"] None;
Blk Arm "core_arch_ops_gcc_arm.hpp" 996 "fetch_add" 32 16 false false [l1; l38; l47; l84; l48; l49; l50] [o11; o17; o10; o12] [o18] ["cc"] None;
Blk Arm "core_arch_ops_gcc_arm.hpp" 1023 "fetch_sub" 32 16 false false [l1; l38; l51; l84; l48; l49; l50] [o11; o17; o10; o12] [o18] ["cc"] None;
Blk Arm "core_arch_ops_gcc_arm.hpp" 1058 "fetch_add" 32 16 true false [l1; l38; l47; l85; l48; l49; l50] [o11; o17; o10; o12] [o18] ["cc"] None;
Blk Arm "core_arch_ops_gcc_arm.hpp" 1085 "fetch_sub" 32 16 true false [l1; l38; l51; l85; l48; l49; l50] [o11; o17; o10; o12] [o18] ["cc"] None;
Blk Arm "core_arch_ops_gcc_arm.hpp" 1145 "load" 64 64 false false [l86] [o0] [o22] [] None;
Blk Arm "core_arch_ops_gcc_arm.hpp" 1145 "load" 64 64 false true [l86] [o0] [o22] [] None;
Blk Arm "core_arch_ops_gcc_arm.hpp" 1153 "load" 64 64 false false [l87] [o23; o0] [o22] [] None;
Blk Arm "core_arch_ops_gcc_arm.hpp" 1153 "load" 64 64 false true [l87] [o23; o0] [o22] [] None;
Blk Arm "core_arch_ops_gcc_arm.hpp" 1172 "exchange" 64 64 false false [l1; l87; l88; l89; l58] [o23; o0; o24] [o3] ["cc"] None;
Blk Arm "core_arch_ops_gcc_arm.hpp" 1172 "exchange" 64 64 false true [l1; l87; l88; l89; l58] [o23; o0; o24] [o3] ["cc"] None;
Blk Arm "core_arch_ops_gcc_arm.hpp" 1198 "compare_exchange_weak" 64 64 false false [l90; l91; l92; l93; l94; l95; l96; l1] [o23; o0; o25; o24] [o26; o8] ["cc"] None;
Blk Arm "core_arch_ops_gcc_arm.hpp" 1198 "compare_exchange_weak" 64 64 false true [l90; l91; l92; l93; l94; l95; l96; l1] [o23; o0; o25; o24] [o26; o8] ["cc"] None;
Blk Arm "core_arch_ops_gcc_arm.hpp" 1233 "compare_exchange_strong" 64 64 false false [l1; l90; l91; l92; l93; l64; l95; l97; l67; l15] [o23; o0; o25; o24] [o26; o8] ["cc"] None;
Blk Arm "core_arch_ops_gcc_arm.hpp" 1233 "compare_exchange_strong" 64 64 false true [l1; l90; l91; l92; l93; l64; l95; l97; l67; l15] [o23; o0; o25; o24] [o26; o8] ["cc"] None;
Blk Arm "core_arch_ops_gcc_arm.hpp" 1268 "fetch_add" 64 64 false false [l1; l98; l99; l100; l101; l102; l50] [o23; o0; o27; o24] [o3] ["cc"] None;
Blk Arm "core_arch_ops_gcc_arm.hpp" 1268 "fetch_add" 64 64 false true [l1; l98; l103; l104; l101; l102; l50] [o23; o0; o27; o24] [o3] ["cc"] None;
Blk Arm "core_arch_ops_gcc_arm.hpp" 1295 "fetch_sub" 64 64 false false [l1; l98; l105; l106; l101; l102; l50] [o23; o0; o27; o24] [o3] ["cc"] None;
Blk Arm "core_arch_ops_gcc_arm.hpp" 1295 "fetch_sub" 64 64 false true [l1; l98; l107; l108; l101; l102; l50] [o23; o0; o27; o24] [o3] ["cc"] None;
Blk Arm "core_arch_ops_gcc_arm.hpp" 1322 "fetch_and" 64 64 false false [l1; l98; l109; l110; l101; l102; l50] [o23; o0; o27; o24] [o3] ["cc"] None;
Blk Arm "core_arch_ops_gcc_arm.hpp" 1322 "fetch_and" 64 64 false true [l1; l98; l109; l110; l101; l102; l50] [o23; o0; o27; o24] [o3] ["cc"] None;
Blk Arm "core_arch_ops_gcc_arm.hpp" 1349 "fetch_or" 64 64 false false [l1; l98; l111; l112; l101; l102; l50] [o23; o0; o27; o24] [o3] ["cc"] None;
Blk Arm "core_arch_ops_gcc_arm.hpp" 1349 "fetch_or" 64 64 false true [l1; l98; l111; l112; l101; l102; l50] [o23; o0; o27; o24] [o3] ["cc"] None;
Blk Arm "core_arch_ops_gcc_arm.hpp" 1376 "fetch_xor" 64 64 false false [l1; l98; l113; l114; l101; l102; l50] [o23; o0; o27; o24] [o3] ["cc"] None;
Blk Arm "core_arch_ops_gcc_arm.hpp" 1376 "fetch_xor" 64 64 false true [l1; l98; l113; l114; l101; l102; l50] [o23; o0; o27; o24] [o3] ["cc"] None;
Blk Arm "extra_ops_gcc_arm.hpp" 109 "fetch_negate" 8 8 false false [l1; l59; l501; l69; l70; l71] [o19; o21; o10; o12] [] ["cc"] None;
Blk Arm "extra_ops_gcc_arm.hpp" 135 "negate" 8 8 false false [l1; l59; l501; l69; l70; l71] [o19; o21; o10; o12] [] ["cc"] None;
Blk Arm "extra_ops_gcc_arm.hpp" 161 "add" 8 8 false false [l1; l59; l68; l69; l70; l71] [o19; o21; o10; o12] [o18] ["cc"] None;
Blk Arm "extra_ops_gcc_arm.hpp" 187 "sub" 8 8 false false [l1; l59; l72; l69; l70; l71] [o19; o21; o10; o12] [o18] ["cc"] None;
Blk Arm "extra_ops_gcc_arm.hpp" 213 "bitwise_and" 8 8 false false [l1; l59; l73; l69; l70; l71] [o19; o21; o10; o12] [o18] ["cc"] None;
Blk Arm "extra_ops_gcc_arm.hpp" 239 "bitwise_or" 8 8 false false [l1; l59; l74; l69; l70; l71] [o19; o21; o10; o12] [o18] ["cc"] None;
Blk Arm "extra_ops_gcc_arm.hpp" 265 "bitwise_xor" 8 8 false false [l1; l59; l75; l69; l70; l71] [o19; o21; o10; o12] [o18] ["cc"] None;
Blk Arm "extra_ops_gcc_arm.hpp" 291 "fetch_complement" 8 8 false false [l1; l59; l502; l69; l70; l71] [o19; o21; o10; o12] [] ["cc"] None;
Blk Arm "extra_ops_gcc_arm.hpp" 317 "bitwise_complement" 8 8 false false [l1; l59; l502; l69; l70; l71] [o19; o21; o10; o12] [] ["cc"] None;
Blk Arm "extra_ops_gcc_arm.hpp" 362 "fetch_negate" 16 16 false false [l1; l80; l501; l83; l70; l71] [o19; o21; o10; o12] [] ["cc"] None;
Blk Arm "extra_ops_gcc_arm.hpp" 388 "negate" 16 16 false false [l1; l80; l501; l83; l70; l71] [o19; o21; o10; o12] [] ["cc"] None;
Blk Arm "extra_ops_gcc_arm.hpp" 414 "add" 16 16 false false [l1; l80; l68; l83; l70; l71] [o19; o21; o10; o12] [o18] ["cc"] None;
Blk Arm "extra_ops_gcc_arm.hpp" 440 "sub" 16 16 false false [l1; l80; l72; l83; l70; l71] [o19; o21; o10; o12] [o18] ["cc"] None;
Blk Arm "extra_ops_gcc_arm.hpp" 466 "bitwise_and" 16 16 false false [l1; l80; l73; l83; l70; l71] [o19; o21; o10; o12] [o18] ["cc"] None;
Blk Arm "extra_ops_gcc_arm.hpp" 492 "bitwise_or" 16 16 false false [l1; l80; l74; l83; l70; l71] [o19; o21; o10; o12] [o18] ["cc"] None;
Blk Arm "extra_ops_gcc_arm.hpp" 518 "bitwise_xor" 16 16 false false [l1; l80; l75; l83; l70; l71] [o19; o21; o10; o12] [o18] ["cc"] None;
Blk Arm "extra_ops_gcc_arm.hpp" 544 "fetch_complement" 16 16 false false [l1; l80; l502; l83; l70; l71] [o19; o21; o10; o12] [] ["cc"] None;
Blk Arm "extra_ops_gcc_arm.hpp" 570 "bitwise_complement" 16 16 false false [l1; l80; l502; l83; l70; l71] [o19; o21; o10; o12] [] ["cc"] None;
Blk Arm "extra_ops_gcc_arm.hpp" 612 "fetch_negate" 32 32 false false [l1; l503; l501; l504; l70; l71] [o11; o17; o10; o12] [] ["cc"] None;
Blk Arm "extra_ops_gcc_arm.hpp" 638 "negate" 32 32 false false [l1; l503; l501; l504; l70; l71] [o11; o17; o10; o12] [] ["cc"] None;
Blk Arm "extra_ops_gcc_arm.hpp" 664 "add" 32 32 false false [l1; l38; l47; l48; l49; l50] [o11; o17; o10; o12] [o18] ["cc"] None;
Blk Arm "extra_ops_gcc_arm.hpp" 690 "sub" 32 32 false false [l1; l38; l51; l48; l49; l50] [o11; o17; o10; o12] [o18] ["cc"] None;
Blk Arm "extra_ops_gcc_arm.hpp" 716 "bitwise_and" 32 32 false false [l1; l38; l52; l48; l49; l50] [o11; o17; o10; o12] [o18] ["cc"] None;
Blk Arm "extra_ops_gcc_arm.hpp" 742 "bitwise_or" 32 32 false false [l1; l38; l53; l48; l49; l50] [o11; o17; o10; o12] [o18] ["cc"] None;
Blk Arm "extra_ops_gcc_arm.hpp" 768 "bitwise_xor" 32 32 false false [l1; l38; l54; l48; l49; l50] [o11; o17; o10; o12] [o18] ["cc"] None;
Blk Arm "extra_ops_gcc_arm.hpp" 794 "fetch_complement" 32 32 false false [l1; l503; l502; l504; l70; l71] [o11; o17; o10; o12] [] ["cc"] None;
Blk Arm "extra_ops_gcc_arm.hpp" 820 "bitwise_complement" 32 32 false false [l1; l503; l502; l504; l70; l71] [o11; o17; o10; o12] [] ["cc"] None;
Blk Arm "extra_ops_gcc_arm.hpp" 862 "fetch_negate" 64 64 false false [l1; l98; l505; l506; l507; l508; l101; l102; l50] [o23; o0; o27; o24] [] ["cc"] None;
Blk Arm "extra_ops_gcc_arm.hpp" 862 "fetch_negate" 64 64 false true [l1; l98; l505; l506; l509; l510; l101; l102; l50] [o23; o0; o27; o24] [] ["cc"] None;
Blk Arm "extra_ops_gcc_arm.hpp" 891 "negate" 64 64 false false [l1; l98; l505; l506; l507; l508; l101; l102; l50] [o23; o0; o27; o24] [] ["cc"] None;
Blk Arm "extra_ops_gcc_arm.hpp" 891 "negate" 64 64 false true [l1; l98; l505; l506; l509; l510; l101; l102; l50] [o23; o0; o27; o24] [] ["cc"] None;
Blk Arm "extra_ops_gcc_arm.hpp" 920 "add" 64 64 false false [l1; l98; l99; l100; l101; l102; l50] [o23; o0; o27; o24] [o3] ["cc"] None;
Blk Arm "extra_ops_gcc_arm.hpp" 920 "add" 64 64 false true [l1; l98; l103; l104; l101; l102; l50] [o23; o0; o27; o24] [o3] ["cc"] None;
Blk Arm "extra_ops_gcc_arm.hpp" 947 "sub" 64 64 false false [l1; l98; l105; l106; l101; l102; l50] [o23; o0; o27; o24] [o3] ["cc"] None;
Blk Arm "extra_ops_gcc_arm.hpp" 947 "sub" 64 64 false true [l1; l98; l107; l108; l101; l102; l50] [o23; o0; o27; o24] [o3] ["cc"] None;
Blk Arm "extra_ops_gcc_arm.hpp" 974 "bitwise_and" 64 64 false false [l1; l98; l109; l110; l101; l102; l50] [o23; o0; o27; o24] [o3] ["cc"] None;
Blk Arm "extra_ops_gcc_arm.hpp" 974 "bitwise_and" 64 64 false true [l1; l98; l109; l110; l101; l102; l50] [o23; o0; o27; o24] [o3] ["cc"] None;
Blk Arm "extra_ops_gcc_arm.hpp" 1001 "bitwise_or" 64 64 false false [l1; l98; l111; l112; l101; l102; l50] [o23; o0; o27; o24] [o3] ["cc"] None;
Blk Arm "extra_ops_gcc_arm.hpp" 1001 "bitwise_or" 64 64 false true [l1; l98; l111; l112; l101; l102; l50] [o23; o0; o27; o24] [o3] ["cc"] None;
Blk Arm "extra_ops_gcc_arm.hpp" 1028 "bitwise_xor" 64 64 false false [l1; l98; l113; l114; l101; l102; l50] [o23; o0; o27; o24] [o3] ["cc"] None;
Blk Arm "extra_ops_gcc_arm.hpp" 1028 "bitwise_xor" 64 64 false true [l1; l98; l113; l114; l101; l102; l50] [o23; o0; o27; o24] [o3] ["cc"] None;
Blk Arm "extra_ops_gcc_arm.hpp" 1055 "fetch_complement" 64 64 false false [l1; l98; l505; l506; l101; l102; l50] [o23; o0; o27; o24] [] ["cc"] None;
Blk Arm "extra_ops_gcc_arm.hpp" 1055 "fetch_complement" 64 64 false true [l1; l98; l505; l506; l101; l102; l50] [o23; o0; o27; o24] [] ["cc"] None;
Blk Arm "extra_ops_gcc_arm.hpp" 1082 "bitwise_complement" 64 64 false false [l1; l98; l505; l506; l101; l102; l50] [o23; o0; o27; o24] [] ["cc"] None;
Blk Arm "extra_ops_gcc_arm.hpp" 1082 "bitwise_complement" 64 64 false true [l1; l98; l505; l506; l101; l102; l50] [o23; o0; o27; o24] [] ["cc"] None].

Definition blocks_aarch32 : list block := [
Blk AArch32 "core_arch_ops_gcc_aarch32.hpp" 68 "store" 8 8 false false [l243] [o100] [o13] ["memory"] None;
Blk AArch32 "core_arch_ops_gcc_aarch32.hpp" 87 "load" 8 8 false false [l244] [o101] [o102] ["memory"] None;
Blk AArch32 "core_arch_ops_gcc_aarch32.hpp" 109 "exchange" 8 8 false false [l1; l55; l56; l245; l246] [o103; o11; o12] [o13] ["cc"; "memory"] (Some (false, false));
Blk AArch32 "core_arch_ops_gcc_aarch32.hpp" 109 "exchange" 8 8 false false [l1; l247; l56; l245; l246] [o103; o11; o12] [o13] ["cc"; "memory"] (Some (true, false));
Blk AArch32 "core_arch_ops_gcc_aarch32.hpp" 109 "exchange" 8 8 false false [l1; l55; l248; l245; l246] [o103; o11; o12] [o13] ["cc"; "memory"] (Some (false, true));
Blk AArch32 "core_arch_ops_gcc_aarch32.hpp" 109 "exchange" 8 8 false false [l1; l247; l248; l245; l246] [o103; o11; o12] [o13] ["cc"; "memory"] (Some (true, true));
Blk AArch32 "core_arch_ops_gcc_aarch32.hpp" 135 "compare_exchange_weak" 8 8 false false [l249; l250; l55; l251; l252; l253; l254; l1] [o11; o104; o12] [o105; o16] ["cc"; "memory"] (Some (false, false));
Blk AArch32 "core_arch_ops_gcc_aarch32.hpp" 135 "compare_exchange_weak" 8 8 false false [l249; l250; l247; l251; l252; l253; l254; l1] [o11; o104; o12] [o105; o16] ["cc"; "memory"] (Some (true, false));
Blk AArch32 "core_arch_ops_gcc_aarch32.hpp" 135 "compare_exchange_weak" 8 8 false false [l249; l250; l55; l251; l252; l255; l254; l1] [o11; o104; o12] [o105; o16] ["cc"; "memory"] (Some (false, true));
Blk AArch32 "core_arch_ops_gcc_aarch32.hpp" 135 "compare_exchange_weak" 8 8 false false [l249; l250; l247; l251; l252; l255; l254; l1] [o11; o104; o12] [o105; o16] ["cc"; "memory"] (Some (true, true));
Blk AArch32 "core_arch_ops_gcc_aarch32.hpp" 166 "compare_exchange_strong" 8 8 false false [l249; l250; l1; l55; l251; l256; l253; l257; l258; l15] [o11; o104; o12] [o105; o16] ["cc"; "memory"] (Some (false, false));
Blk AArch32 "core_arch_ops_gcc_aarch32.hpp" 166 "compare_exchange_strong" 8 8 false false [l249; l250; l1; l247; l251; l256; l253; l257; l258; l15] [o11; o104; o12] [o105; o16] ["cc"; "memory"] (Some (true, false));
Blk AArch32 "core_arch_ops_gcc_aarch32.hpp" 166 "compare_exchange_strong" 8 8 false false [l249; l250; l1; l55; l251; l256; l255; l257; l258; l15] [o11; o104; o12] [o105; o16] ["cc"; "memory"] (Some (false, true));
Blk AArch32 "core_arch_ops_gcc_aarch32.hpp" 166 "compare_exchange_strong" 8 8 false false [l249; l250; l1; l247; l251; l256; l255; l257; l258; l15] [o11; o104; o12] [o105; o16] ["cc"; "memory"] (Some (true, true));
Blk AArch32 "core_arch_ops_gcc_aarch32.hpp" 198 "fetch_add" 8 8 false false [l1; l55; l259; l260; l245; l246] [o11; o17; o103; o12] [o18] ["cc"; "memory"] (Some (false, false));
Blk AArch32 "core_arch_ops_gcc_aarch32.hpp" 198 "fetch_add" 8 8 false false [l1; l247; l259; l260; l245; l246] [o11; o17; o103; o12] [o18] ["cc"; "memory"] (Some (true, false));
Blk AArch32 "core_arch_ops_gcc_aarch32.hpp" 198 "fetch_add" 8 8 false false [l1; l55; l259; l261; l245; l246] [o11; o17; o103; o12] [o18] ["cc"; "memory"] (Some (false, true));
Blk AArch32 "core_arch_ops_gcc_aarch32.hpp" 198 "fetch_add" 8 8 false false [l1; l247; l259; l261; l245; l246] [o11; o17; o103; o12] [o18] ["cc"; "memory"] (Some (true, true));
Blk AArch32 "core_arch_ops_gcc_aarch32.hpp" 224 "fetch_sub" 8 8 false false [l1; l55; l262; l260; l245; l246] [o11; o17; o103; o12] [o18] ["cc"; "memory"] (Some (false, false));
Blk AArch32 "core_arch_ops_gcc_aarch32.hpp" 224 "fetch_sub" 8 8 false false [l1; l247; l262; l260; l245; l246] [o11; o17; o103; o12] [o18] ["cc"; "memory"] (Some (true, false));
Blk AArch32 "core_arch_ops_gcc_aarch32.hpp" 224 "fetch_sub" 8 8 false false [l1; l55; l262; l261; l245; l246] [o11; o17; o103; o12] [o18] ["cc"; "memory"] (Some (false, true));
Blk AArch32 "core_arch_ops_gcc_aarch32.hpp" 224 "fetch_sub" 8 8 false false [l1; l247; l262; l261; l245; l246] [o11; o17; o103; o12] [o18] ["cc"; "memory"] (Some (true, true));
Blk AArch32 "core_arch_ops_gcc_aarch32.hpp" 250 "fetch_and" 8 8 false false [l1; l55; l263; l260; l245; l246] [o11; o17; o103; o12] [o18] ["cc"; "memory"] (Some (false, false));
Blk AArch32 "core_arch_ops_gcc_aarch32.hpp" 250 "fetch_and" 8 8 false false [l1; l247; l263; l260; l245; l246] [o11; o17; o103; o12] [o18] ["cc"; "memory"] (Some (true, false));
Blk AArch32 "core_arch_ops_gcc_aarch32.hpp" 250 "fetch_and" 8 8 false false [l1; l55; l263; l261; l245; l246] [o11; o17; o103; o12] [o18] ["cc"; "memory"] (Some (false, true));
Blk AArch32 "core_arch_ops_gcc_aarch32.hpp" 250 "fetch_and" 8 8 false false [l1; l247; l263; l261; l245; l246] [o11; o17; o103; o12] [o18] ["cc"; "memory"] (Some (true, true));
Blk AArch32 "core_arch_ops_gcc_aarch32.hpp" 276 "fetch_or" 8 8 false false [l1; l55; l264; l260; l245; l246] [o11; o17; o103; o12] [o18] ["cc"; "memory"] (Some (false, false));
Blk AArch32 "core_arch_ops_gcc_aarch32.hpp" 276 "fetch_or" 8 8 false false [l1; l247; l264; l260; l245; l246] [o11; o17; o103; o12] [o18] ["cc"; "memory"] (Some (true, false));
Blk AArch32 "core_arch_ops_gcc_aarch32.hpp" 276 "fetch_or" 8 8 false false [l1; l55; l264; l261; l245; l246] [o11; o17; o103; o12] [o18] ["cc"; "memory"] (Some (false, true));
Blk AArch32 "core_arch_ops_gcc_aarch32.hpp" 276 "fetch_or" 8 8 false false [l1; l247; l264; l261; l245; l246] [o11; o17; o103; o12] [o18] ["cc"; "memory"] (Some (true, true));
Blk AArch32 "core_arch_ops_gcc_aarch32.hpp" 302 "fetch_xor" 8 8 false false [l1; l55; l265; l260; l245; l246] [o11; o17; o103; o12] [o18] ["cc"; "memory"] (Some (false, false));
Blk AArch32 "core_arch_ops_gcc_aarch32.hpp" 302 "fetch_xor" 8 8 false false [l1; l247; l265; l260; l245; l246] [o11; o17; o103; o12] [o18] ["cc"; "memory"] (Some (true, false));
Blk AArch32 "core_arch_ops_gcc_aarch32.hpp" 302 "fetch_xor" 8 8 false false [l1; l55; l265; l261; l245; l246] [o11; o17; o103; o12] [o18] ["cc"; "memory"] (Some (false, true));
Blk AArch32 "core_arch_ops_gcc_aarch32.hpp" 302 "fetch_xor" 8 8 false false [l1; l247; l265; l261; l245; l246] [o11; o17; o103; o12] [o18] ["cc"; "memory"] (Some (true, true));
Blk AArch32 "core_arch_ops_gcc_aarch32.hpp" 350 "store" 16 16 false false [l266] [o100] [o13] ["memory"] None;
Blk AArch32 "core_arch_ops_gcc_aarch32.hpp" 369 "load" 16 16 false false [l267] [o101] [o102] ["memory"] None;
Blk AArch32 "core_arch_ops_gcc_aarch32.hpp" 391 "exchange" 16 16 false false [l1; l78; l79; l245; l246] [o103; o11; o12] [o13] ["cc"; "memory"] (Some (false, false));
Blk AArch32 "core_arch_ops_gcc_aarch32.hpp" 391 "exchange" 16 16 false false [l1; l268; l79; l245; l246] [o103; o11; o12] [o13] ["cc"; "memory"] (Some (true, false));
Blk AArch32 "core_arch_ops_gcc_aarch32.hpp" 391 "exchange" 16 16 false false [l1; l78; l269; l245; l246] [o103; o11; o12] [o13] ["cc"; "memory"] (Some (false, true));
Blk AArch32 "core_arch_ops_gcc_aarch32.hpp" 391 "exchange" 16 16 false false [l1; l268; l269; l245; l246] [o103; o11; o12] [o13] ["cc"; "memory"] (Some (true, true));
Blk AArch32 "core_arch_ops_gcc_aarch32.hpp" 417 "compare_exchange_weak" 16 16 false false [l270; l250; l78; l251; l252; l271; l254; l1] [o11; o104; o12] [o105; o16] ["cc"; "memory"] (Some (false, false));
Blk AArch32 "core_arch_ops_gcc_aarch32.hpp" 417 "compare_exchange_weak" 16 16 false false [l270; l250; l268; l251; l252; l271; l254; l1] [o11; o104; o12] [o105; o16] ["cc"; "memory"] (Some (true, false));
Blk AArch32 "core_arch_ops_gcc_aarch32.hpp" 417 "compare_exchange_weak" 16 16 false false [l270; l250; l78; l251; l252; l272; l254; l1] [o11; o104; o12] [o105; o16] ["cc"; "memory"] (Some (false, true));
Blk AArch32 "core_arch_ops_gcc_aarch32.hpp" 417 "compare_exchange_weak" 16 16 false false [l270; l250; l268; l251; l252; l272; l254; l1] [o11; o104; o12] [o105; o16] ["cc"; "memory"] (Some (true, true));
Blk AArch32 "core_arch_ops_gcc_aarch32.hpp" 448 "compare_exchange_strong" 16 16 false false [l270; l250; l1; l78; l251; l256; l271; l257; l258; l15] [o11; o104; o12] [o105; o16] ["cc"; "memory"] (Some (false, false));
Blk AArch32 "core_arch_ops_gcc_aarch32.hpp" 448 "compare_exchange_strong" 16 16 false false [l270; l250; l1; l268; l251; l256; l271; l257; l258; l15] [o11; o104; o12] [o105; o16] ["cc"; "memory"] (Some (true, false));
Blk AArch32 "core_arch_ops_gcc_aarch32.hpp" 448 "compare_exchange_strong" 16 16 false false [l270; l250; l1; l78; l251; l256; l272; l257; l258; l15] [o11; o104; o12] [o105; o16] ["cc"; "memory"] (Some (false, true));
Blk AArch32 "core_arch_ops_gcc_aarch32.hpp" 448 "compare_exchange_strong" 16 16 false false [l270; l250; l1; l268; l251; l256; l272; l257; l258; l15] [o11; o104; o12] [o105; o16] ["cc"; "memory"] (Some (true, true));
Blk AArch32 "core_arch_ops_gcc_aarch32.hpp" 480 "fetch_add" 16 16 false false [l1; l78; l259; l273; l245; l246] [o11; o17; o103; o12] [o18] ["cc"; "memory"] (Some (false, false));
Blk AArch32 "core_arch_ops_gcc_aarch32.hpp" 480 "fetch_add" 16 16 false false [l1; l268; l259; l273; l245; l246] [o11; o17; o103; o12] [o18] ["cc"; "memory"] (Some (true, false));
Blk AArch32 "core_arch_ops_gcc_aarch32.hpp" 480 "fetch_add" 16 16 false false [l1; l78; l259; l274; l245; l246] [o11; o17; o103; o12] [o18] ["cc"; "memory"] (Some (false, true));
Blk AArch32 "core_arch_ops_gcc_aarch32.hpp" 480 "fetch_add" 16 16 false false [l1; l268; l259; l274; l245; l246] [o11; o17; o103; o12] [o18] ["cc"; "memory"] (Some (true, true));
Blk AArch32 "core_arch_ops_gcc_aarch32.hpp" 506 "fetch_sub" 16 16 false false [l1; l78; l262; l273; l245; l246] [o11; o17; o103; o12] [o18] ["cc"; "memory"] (Some (false, false));
Blk AArch32 "core_arch_ops_gcc_aarch32.hpp" 506 "fetch_sub" 16 16 false false [l1; l268; l262; l273; l245; l246] [o11; o17; o103; o12] [o18] ["cc"; "memory"] (Some (true, false));
Blk AArch32 "core_arch_ops_gcc_aarch32.hpp" 506 "fetch_sub" 16 16 false false [l1; l78; l262; l274; l245; l246] [o11; o17; o103; o12] [o18] ["cc"; "memory"] (Some (false, true));
Blk AArch32 "core_arch_ops_gcc_aarch32.hpp" 506 "fetch_sub" 16 16 false false [l1; l268; l262; l274; l245; l246] [o11; o17; o103; o12] [o18] ["cc"; "memory"] (Some (true, true));
Blk AArch32 "core_arch_ops_gcc_aarch32.hpp" 532 "fetch_and" 16 16 false false [l1; l78; l263; l273; l245; l246] [o11; o17; o103; o12] [o18] ["cc"; "memory"] (Some (false, false));
Blk AArch32 "core_arch_ops_gcc_aarch32.hpp" 532 "fetch_and" 16 16 false false [l1; l268; l263; l273; l245; l246] [o11; o17; o103; o12] [o18] ["cc"; "memory"] (Some (true, false));
Blk AArch32 "core_arch_ops_gcc_aarch32.hpp" 532 "fetch_and" 16 16 false false [l1; l78; l263; l274; l245; l246] [o11; o17; o103; o12] [o18] ["cc"; "memory"] (Some (false, true));
Blk AArch32 "core_arch_ops_gcc_aarch32.hpp" 532 "fetch_and" 16 16 false false [l1; l268; l263; l274; l245; l246] [o11; o17; o103; o12] [o18] ["cc"; "memory"] (Some (true, true));
Blk AArch32 "core_arch_ops_gcc_aarch32.hpp" 558 "fetch_or" 16 16 false false [l1; l78; l264; l273; l245; l246] [o11; o17; o103; o12] [o18] ["cc"; "memory"] (Some (false, false));
Blk AArch32 "core_arch_ops_gcc_aarch32.hpp" 558 "fetch_or" 16 16 false false [l1; l268; l264; l273; l245; l246] [o11; o17; o103; o12] [o18] ["cc"; "memory"] (Some (true, false));
Blk AArch32 "core_arch_ops_gcc_aarch32.hpp" 558 "fetch_or" 16 16 false false [l1; l78; l264; l274; l245; l246] [o11; o17; o103; o12] [o18] ["cc"; "memory"] (Some (false, true));
Blk AArch32 "core_arch_ops_gcc_aarch32.hpp" 558 "fetch_or" 16 16 false false [l1; l268; l264; l274; l245; l246] [o11; o17; o103; o12] [o18] ["cc"; "memory"] (Some (true, true));
Blk AArch32 "core_arch_ops_gcc_aarch32.hpp" 584 "fetch_xor" 16 16 false false [l1; l78; l265; l273; l245; l246] [o11; o17; o103; o12] [o18] ["cc"; "memory"] (Some (false, false));
Blk AArch32 "core_arch_ops_gcc_aarch32.hpp" 584 "fetch_xor" 16 16 false false [l1; l268; l265; l273; l245; l246] [o11; o17; o103; o12] [o18] ["cc"; "memory"] (Some (true, false));
Blk AArch32 "core_arch_ops_gcc_aarch32.hpp" 584 "fetch_xor" 16 16 false false [l1; l78; l265; l274; l245; l246] [o11; o17; o103; o12] [o18] ["cc"; "memory"] (Some (false, true));
Blk AArch32 "core_arch_ops_gcc_aarch32.hpp" 584 "fetch_xor" 16 16 false false [l1; l268; l265; l274; l245; l246] [o11; o17; o103; o12] [o18] ["cc"; "memory"] (Some (true, true));
Blk AArch32 "core_arch_ops_gcc_aarch32.hpp" 632 "store" 32 32 false false [l275] [o100] [o13] ["memory"] None;
Blk AArch32 "core_arch_ops_gcc_aarch32.hpp" 651 "load" 32 32 false false [l276] [o101] [o102] ["memory"] None;
Blk AArch32 "core_arch_ops_gcc_aarch32.hpp" 673 "exchange" 32 32 false false [l1; l34; l35; l245; l246] [o103; o11; o12] [o13] ["cc"; "memory"] (Some (false, false));
Blk AArch32 "core_arch_ops_gcc_aarch32.hpp" 673 "exchange" 32 32 false false [l1; l277; l35; l245; l246] [o103; o11; o12] [o13] ["cc"; "memory"] (Some (true, false));
Blk AArch32 "core_arch_ops_gcc_aarch32.hpp" 673 "exchange" 32 32 false false [l1; l34; l278; l245; l246] [o103; o11; o12] [o13] ["cc"; "memory"] (Some (false, true));
Blk AArch32 "core_arch_ops_gcc_aarch32.hpp" 673 "exchange" 32 32 false false [l1; l277; l278; l245; l246] [o103; o11; o12] [o13] ["cc"; "memory"] (Some (true, true));
Blk AArch32 "core_arch_ops_gcc_aarch32.hpp" 699 "compare_exchange_weak" 32 32 false false [l250; l34; l251; l252; l279; l254; l1] [o11; o104; o12] [o15; o16] ["cc"; "memory"] (Some (false, false));
Blk AArch32 "core_arch_ops_gcc_aarch32.hpp" 699 "compare_exchange_weak" 32 32 false false [l250; l277; l251; l252; l279; l254; l1] [o11; o104; o12] [o15; o16] ["cc"; "memory"] (Some (true, false));
Blk AArch32 "core_arch_ops_gcc_aarch32.hpp" 699 "compare_exchange_weak" 32 32 false false [l250; l34; l251; l252; l280; l254; l1] [o11; o104; o12] [o15; o16] ["cc"; "memory"] (Some (false, true));
Blk AArch32 "core_arch_ops_gcc_aarch32.hpp" 699 "compare_exchange_weak" 32 32 false false [l250; l277; l251; l252; l280; l254; l1] [o11; o104; o12] [o15; o16] ["cc"; "memory"] (Some (true, true));
Blk AArch32 "core_arch_ops_gcc_aarch32.hpp" 729 "compare_exchange_strong" 32 32 false false [l250; l1; l34; l251; l256; l279; l257; l258; l15] [o11; o104; o12] [o15; o16] ["cc"; "memory"] (Some (false, false));
Blk AArch32 "core_arch_ops_gcc_aarch32.hpp" 729 "compare_exchange_strong" 32 32 false false [l250; l1; l277; l251; l256; l279; l257; l258; l15] [o11; o104; o12] [o15; o16] ["cc"; "memory"] (Some (true, false));
Blk AArch32 "core_arch_ops_gcc_aarch32.hpp" 729 "compare_exchange_strong" 32 32 false false [l250; l1; l34; l251; l256; l280; l257; l258; l15] [o11; o104; o12] [o15; o16] ["cc"; "memory"] (Some (false, true));
Blk AArch32 "core_arch_ops_gcc_aarch32.hpp" 729 "compare_exchange_strong" 32 32 false false [l250; l1; l277; l251; l256; l280; l257; l258; l15] [o11; o104; o12] [o15; o16] ["cc"; "memory"] (Some (true, true));
Blk AArch32 "core_arch_ops_gcc_aarch32.hpp" 760 "fetch_add" 32 32 false false [l1; l34; l259; l281; l245; l246] [o11; o17; o103; o12] [o18] ["cc"; "memory"] (Some (false, false));
Blk AArch32 "core_arch_ops_gcc_aarch32.hpp" 760 "fetch_add" 32 32 false false [l1; l277; l259; l281; l245; l246] [o11; o17; o103; o12] [o18] ["cc"; "memory"] (Some (true, false));
Blk AArch32 "core_arch_ops_gcc_aarch32.hpp" 760 "fetch_add" 32 32 false false [l1; l34; l259; l282; l245; l246] [o11; o17; o103; o12] [o18] ["cc"; "memory"] (Some (false, true));
Blk AArch32 "core_arch_ops_gcc_aarch32.hpp" 760 "fetch_add" 32 32 false false [l1; l277; l259; l282; l245; l246] [o11; o17; o103; o12] [o18] ["cc"; "memory"] (Some (true, true));
Blk AArch32 "core_arch_ops_gcc_aarch32.hpp" 786 "fetch_sub" 32 32 false false [l1; l34; l262; l281; l245; l246] [o11; o17; o103; o12] [o18] ["cc"; "memory"] (Some (false, false));
Blk AArch32 "core_arch_ops_gcc_aarch32.hpp" 786 "fetch_sub" 32 32 false false [l1; l277; l262; l281; l245; l246] [o11; o17; o103; o12] [o18] ["cc"; "memory"] (Some (true, false));
Blk AArch32 "core_arch_ops_gcc_aarch32.hpp" 786 "fetch_sub" 32 32 false false [l1; l34; l262; l282; l245; l246] [o11; o17; o103; o12] [o18] ["cc"; "memory"] (Some (false, true));
Blk AArch32 "core_arch_ops_gcc_aarch32.hpp" 786 "fetch_sub" 32 32 false false [l1; l277; l262; l282; l245; l246] [o11; o17; o103; o12] [o18] ["cc"; "memory"] (Some (true, true));
Blk AArch32 "core_arch_ops_gcc_aarch32.hpp" 812 "fetch_and" 32 32 false false [l1; l34; l263; l281; l245; l246] [o11; o17; o103; o12] [o18] ["cc"; "memory"] (Some (false, false));
Blk AArch32 "core_arch_ops_gcc_aarch32.hpp" 812 "fetch_and" 32 32 false false [l1; l277; l263; l281; l245; l246] [o11; o17; o103; o12] [o18] ["cc"; "memory"] (Some (true, false));
Blk AArch32 "core_arch_ops_gcc_aarch32.hpp" 812 "fetch_and" 32 32 false false [l1; l34; l263; l282; l245; l246] [o11; o17; o103; o12] [o18] ["cc"; "memory"] (Some (false, true));
Blk AArch32 "core_arch_ops_gcc_aarch32.hpp" 812 "fetch_and" 32 32 false false [l1; l277; l263; l282; l245; l246] [o11; o17; o103; o12] [o18] ["cc"; "memory"] (Some (true, true));
Blk AArch32 "core_arch_ops_gcc_aarch32.hpp" 838 "fetch_or" 32 32 false false [l1; l34; l264; l281; l245; l246] [o11; o17; o103; o12] [o18] ["cc"; "memory"] (Some (false, false));
Blk AArch32 "core_arch_ops_gcc_aarch32.hpp" 838 "fetch_or" 32 32 false false [l1; l277; l264; l281; l245; l246] [o11; o17; o103; o12] [o18] ["cc"; "memory"] (Some (true, false));
Blk AArch32 "core_arch_ops_gcc_aarch32.hpp" 838 "fetch_or" 32 32 false false [l1; l34; l264; l282; l245; l246] [o11; o17; o103; o12] [o18] ["cc"; "memory"] (Some (false, true));
Blk AArch32 "core_arch_ops_gcc_aarch32.hpp" 838 "fetch_or" 32 32 false false [l1; l277; l264; l282; l245; l246] [o11; o17; o103; o12] [o18] ["cc"; "memory"] (Some (true, true));
Blk AArch32 "core_arch_ops_gcc_aarch32.hpp" 864 "fetch_xor" 32 32 false false [l1; l34; l265; l281; l245; l246] [o11; o17; o103; o12] [o18] ["cc"; "memory"] (Some (false, false));
Blk AArch32 "core_arch_ops_gcc_aarch32.hpp" 864 "fetch_xor" 32 32 false false [l1; l277; l265; l281; l245; l246] [o11; o17; o103; o12] [o18] ["cc"; "memory"] (Some (true, false));
Blk AArch32 "core_arch_ops_gcc_aarch32.hpp" 864 "fetch_xor" 32 32 false false [l1; l34; l265; l282; l245; l246] [o11; o17; o103; o12] [o18] ["cc"; "memory"] (Some (false, true));
Blk AArch32 "core_arch_ops_gcc_aarch32.hpp" 864 "fetch_xor" 32 32 false false [l1; l277; l265; l282; l245; l246] [o11; o17; o103; o12] [o18] ["cc"; "memory"] (Some (true, true));
Blk AArch32 "core_arch_ops_gcc_aarch32.hpp" 931 "store" 64 64 false false [l1; l87; l283; l284; l246] [o106; o0; o24] [o3] ["cc"; "memory"] None;
Blk AArch32 "core_arch_ops_gcc_aarch32.hpp" 931 "store" 64 64 false true [l1; l87; l283; l284; l246] [o106; o0; o24] [o3] ["cc"; "memory"] None;
Blk AArch32 "core_arch_ops_gcc_aarch32.hpp" 945 "store" 64 64 false false [l1; l87; l88; l284; l246] [o106; o0; o24] [o3] ["cc"; "memory"] None;
Blk AArch32 "core_arch_ops_gcc_aarch32.hpp" 945 "store" 64 64 false true [l1; l87; l88; l284; l246] [o106; o0; o24] [o3] ["cc"; "memory"] None;
Blk AArch32 "core_arch_ops_gcc_aarch32.hpp" 964 "load" 64 64 false false [l285] [o0] [o22] [] None;
Blk AArch32 "core_arch_ops_gcc_aarch32.hpp" 964 "load" 64 64 false true [l285] [o0] [o22] [] None;
Blk AArch32 "core_arch_ops_gcc_aarch32.hpp" 973 "load" 64 64 false false [l86] [o0] [o22] [] None;
Blk AArch32 "core_arch_ops_gcc_aarch32.hpp" 973 "load" 64 64 false true [l86] [o0] [o22] [] None;
Blk AArch32 "core_arch_ops_gcc_aarch32.hpp" 990 "exchange" 64 64 false false [l1; l87; l88; l284; l246] [o106; o0; o24] [o3] ["cc"; "memory"] (Some (false, false));
Blk AArch32 "core_arch_ops_gcc_aarch32.hpp" 990 "exchange" 64 64 false true [l1; l87; l88; l284; l246] [o106; o0; o24] [o3] ["cc"; "memory"] (Some (false, false));
Blk AArch32 "core_arch_ops_gcc_aarch32.hpp" 990 "exchange" 64 64 false false [l1; l286; l88; l284; l246] [o106; o0; o24] [o3] ["cc"; "memory"] (Some (true, false));
Blk AArch32 "core_arch_ops_gcc_aarch32.hpp" 990 "exchange" 64 64 false true [l1; l286; l88; l284; l246] [o106; o0; o24] [o3] ["cc"; "memory"] (Some (true, false));
Blk AArch32 "core_arch_ops_gcc_aarch32.hpp" 990 "exchange" 64 64 false false [l1; l87; l283; l284; l246] [o106; o0; o24] [o3] ["cc"; "memory"] (Some (false, true));
Blk AArch32 "core_arch_ops_gcc_aarch32.hpp" 990 "exchange" 64 64 false true [l1; l87; l283; l284; l246] [o106; o0; o24] [o3] ["cc"; "memory"] (Some (false, true));
Blk AArch32 "core_arch_ops_gcc_aarch32.hpp" 990 "exchange" 64 64 false false [l1; l286; l283; l284; l246] [o106; o0; o24] [o3] ["cc"; "memory"] (Some (true, true));
Blk AArch32 "core_arch_ops_gcc_aarch32.hpp" 990 "exchange" 64 64 false true [l1; l286; l283; l284; l246] [o106; o0; o24] [o3] ["cc"; "memory"] (Some (true, true));
Blk AArch32 "core_arch_ops_gcc_aarch32.hpp" 1016 "compare_exchange_weak" 64 64 false false [l287; l288; l289; l290; l291; l252; l292; l293; l1] [o0; o107; o24] [o26; o8] ["cc"; "memory"] (Some (false, false));
Blk AArch32 "core_arch_ops_gcc_aarch32.hpp" 1016 "compare_exchange_weak" 64 64 false true [l287; l288; l289; l290; l291; l252; l292; l293; l1] [o0; o107; o24] [o26; o8] ["cc"; "memory"] (Some (false, false));
Blk AArch32 "core_arch_ops_gcc_aarch32.hpp" 1016 "compare_exchange_weak" 64 64 false false [l287; l294; l289; l290; l291; l252; l292; l293; l1] [o0; o107; o24] [o26; o8] ["cc"; "memory"] (Some (true, false));
Blk AArch32 "core_arch_ops_gcc_aarch32.hpp" 1016 "compare_exchange_weak" 64 64 false true [l287; l294; l289; l290; l291; l252; l292; l293; l1] [o0; o107; o24] [o26; o8] ["cc"; "memory"] (Some (true, false));
Blk AArch32 "core_arch_ops_gcc_aarch32.hpp" 1016 "compare_exchange_weak" 64 64 false false [l287; l288; l289; l290; l291; l252; l295; l293; l1] [o0; o107; o24] [o26; o8] ["cc"; "memory"] (Some (false, true));
Blk AArch32 "core_arch_ops_gcc_aarch32.hpp" 1016 "compare_exchange_weak" 64 64 false true [l287; l288; l289; l290; l291; l252; l295; l293; l1] [o0; o107; o24] [o26; o8] ["cc"; "memory"] (Some (false, true));
Blk AArch32 "core_arch_ops_gcc_aarch32.hpp" 1016 "compare_exchange_weak" 64 64 false false [l287; l294; l289; l290; l291; l252; l295; l293; l1] [o0; o107; o24] [o26; o8] ["cc"; "memory"] (Some (true, true));
Blk AArch32 "core_arch_ops_gcc_aarch32.hpp" 1016 "compare_exchange_weak" 64 64 false true [l287; l294; l289; l290; l291; l252; l295; l293; l1] [o0; o107; o24] [o26; o8] ["cc"; "memory"] (Some (true, true));
Blk AArch32 "core_arch_ops_gcc_aarch32.hpp" 1048 "compare_exchange_strong" 64 64 false false [l287; l1; l288; l289; l290; l291; l256; l292; l296; l258; l15] [o0; o107; o24] [o26; o8] ["cc"; "memory"] (Some (false, false));
Blk AArch32 "core_arch_ops_gcc_aarch32.hpp" 1048 "compare_exchange_strong" 64 64 false true [l287; l1; l288; l289; l290; l291; l256; l292; l296; l258; l15] [o0; o107; o24] [o26; o8] ["cc"; "memory"] (Some (false, false));
Blk AArch32 "core_arch_ops_gcc_aarch32.hpp" 1048 "compare_exchange_strong" 64 64 false false [l287; l1; l294; l289; l290; l291; l256; l292; l296; l258; l15] [o0; o107; o24] [o26; o8] ["cc"; "memory"] (Some (true, false));
Blk AArch32 "core_arch_ops_gcc_aarch32.hpp" 1048 "compare_exchange_strong" 64 64 false true [l287; l1; l294; l289; l290; l291; l256; l292; l296; l258; l15] [o0; o107; o24] [o26; o8] ["cc"; "memory"] (Some (true, false));
Blk AArch32 "core_arch_ops_gcc_aarch32.hpp" 1048 "compare_exchange_strong" 64 64 false false [l287; l1; l288; l289; l290; l291; l256; l295; l296; l258; l15] [o0; o107; o24] [o26; o8] ["cc"; "memory"] (Some (false, true));
Blk AArch32 "core_arch_ops_gcc_aarch32.hpp" 1048 "compare_exchange_strong" 64 64 false true [l287; l1; l288; l289; l290; l291; l256; l295; l296; l258; l15] [o0; o107; o24] [o26; o8] ["cc"; "memory"] (Some (false, true));
Blk AArch32 "core_arch_ops_gcc_aarch32.hpp" 1048 "compare_exchange_strong" 64 64 false false [l287; l1; l294; l289; l290; l291; l256; l295; l296; l258; l15] [o0; o107; o24] [o26; o8] ["cc"; "memory"] (Some (true, true));
Blk AArch32 "core_arch_ops_gcc_aarch32.hpp" 1048 "compare_exchange_strong" 64 64 false true [l287; l1; l294; l289; l290; l291; l256; l295; l296; l258; l15] [o0; o107; o24] [o26; o8] ["cc"; "memory"] (Some (true, true));
Blk AArch32 "core_arch_ops_gcc_aarch32.hpp" 1081 "fetch_add" 64 64 false false [l1; l288; l297; l298; l299; l300; l246] [o0; o106; o24; o27] [o3] ["cc"; "memory"] (Some (false, false));
Blk AArch32 "core_arch_ops_gcc_aarch32.hpp" 1081 "fetch_add" 64 64 false true [l1; l288; l301; l302; l299; l300; l246] [o0; o106; o24; o27] [o3] ["cc"; "memory"] (Some (false, false));
Blk AArch32 "core_arch_ops_gcc_aarch32.hpp" 1081 "fetch_add" 64 64 false false [l1; l294; l297; l298; l299; l300; l246] [o0; o106; o24; o27] [o3] ["cc"; "memory"] (Some (true, false));
Blk AArch32 "core_arch_ops_gcc_aarch32.hpp" 1081 "fetch_add" 64 64 false true [l1; l294; l301; l302; l299; l300; l246] [o0; o106; o24; o27] [o3] ["cc"; "memory"] (Some (true, false));
Blk AArch32 "core_arch_ops_gcc_aarch32.hpp" 1081 "fetch_add" 64 64 false false [l1; l288; l297; l298; l303; l300; l246] [o0; o106; o24; o27] [o3] ["cc"; "memory"] (Some (false, true));
Blk AArch32 "core_arch_ops_gcc_aarch32.hpp" 1081 "fetch_add" 64 64 false true [l1; l288; l301; l302; l303; l300; l246] [o0; o106; o24; o27] [o3] ["cc"; "memory"] (Some (false, true));
Blk AArch32 "core_arch_ops_gcc_aarch32.hpp" 1081 "fetch_add" 64 64 false false [l1; l294; l297; l298; l303; l300; l246] [o0; o106; o24; o27] [o3] ["cc"; "memory"] (Some (true, true));
Blk AArch32 "core_arch_ops_gcc_aarch32.hpp" 1081 "fetch_add" 64 64 false true [l1; l294; l301; l302; l303; l300; l246] [o0; o106; o24; o27] [o3] ["cc"; "memory"] (Some (true, true));
Blk AArch32 "core_arch_ops_gcc_aarch32.hpp" 1108 "fetch_sub" 64 64 false false [l1; l288; l304; l305; l299; l300; l246] [o0; o106; o24; o27] [o3] ["cc"; "memory"] (Some (false, false));
Blk AArch32 "core_arch_ops_gcc_aarch32.hpp" 1108 "fetch_sub" 64 64 false true [l1; l288; l306; l307; l299; l300; l246] [o0; o106; o24; o27] [o3] ["cc"; "memory"] (Some (false, false));
Blk AArch32 "core_arch_ops_gcc_aarch32.hpp" 1108 "fetch_sub" 64 64 false false [l1; l294; l304; l305; l299; l300; l246] [o0; o106; o24; o27] [o3] ["cc"; "memory"] (Some (true, false));
Blk AArch32 "core_arch_ops_gcc_aarch32.hpp" 1108 "fetch_sub" 64 64 false true [l1; l294; l306; l307; l299; l300; l246] [o0; o106; o24; o27] [o3] ["cc"; "memory"] (Some (true, false));
Blk AArch32 "core_arch_ops_gcc_aarch32.hpp" 1108 "fetch_sub" 64 64 false false [l1; l288; l304; l305; l303; l300; l246] [o0; o106; o24; o27] [o3] ["cc"; "memory"] (Some (false, true));
Blk AArch32 "core_arch_ops_gcc_aarch32.hpp" 1108 "fetch_sub" 64 64 false true [l1; l288; l306; l307; l303; l300; l246] [o0; o106; o24; o27] [o3] ["cc"; "memory"] (Some (false, true));
Blk AArch32 "core_arch_ops_gcc_aarch32.hpp" 1108 "fetch_sub" 64 64 false false [l1; l294; l304; l305; l303; l300; l246] [o0; o106; o24; o27] [o3] ["cc"; "memory"] (Some (true, true));
Blk AArch32 "core_arch_ops_gcc_aarch32.hpp" 1108 "fetch_sub" 64 64 false true [l1; l294; l306; l307; l303; l300; l246] [o0; o106; o24; o27] [o3] ["cc"; "memory"] (Some (true, true));
Blk AArch32 "core_arch_ops_gcc_aarch32.hpp" 1135 "fetch_and" 64 64 false false [l1; l288; l308; l309; l299; l300; l246] [o0; o106; o24; o27] [o3] ["cc"; "memory"] (Some (false, false));
Blk AArch32 "core_arch_ops_gcc_aarch32.hpp" 1135 "fetch_and" 64 64 false true [l1; l288; l308; l309; l299; l300; l246] [o0; o106; o24; o27] [o3] ["cc"; "memory"] (Some (false, false));
Blk AArch32 "core_arch_ops_gcc_aarch32.hpp" 1135 "fetch_and" 64 64 false false [l1; l294; l308; l309; l299; l300; l246] [o0; o106; o24; o27] [o3] ["cc"; "memory"] (Some (true, false));
Blk AArch32 "core_arch_ops_gcc_aarch32.hpp" 1135 "fetch_and" 64 64 false true [l1; l294; l308; l309; l299; l300; l246] [o0; o106; o24; o27] [o3] ["cc"; "memory"] (Some (true, false));
Blk AArch32 "core_arch_ops_gcc_aarch32.hpp" 1135 "fetch_and" 64 64 false false [l1; l288; l308; l309; l303; l300; l246] [o0; o106; o24; o27] [o3] ["cc"; "memory"] (Some (false, true));
Blk AArch32 "core_arch_ops_gcc_aarch32.hpp" 1135 "fetch_and" 64 64 false true [l1; l288; l308; l309; l303; l300; l246] [o0; o106; o24; o27] [o3] ["cc"; "memory"] (Some (false, true));
Blk AArch32 "core_arch_ops_gcc_aarch32.hpp" 1135 "fetch_and" 64 64 false false [l1; l294; l308; l309; l303; l300; l246] [o0; o106; o24; o27] [o3] ["cc"; "memory"] (Some (true, true));
Blk AArch32 "core_arch_ops_gcc_aarch32.hpp" 1135 "fetch_and" 64 64 false true [l1; l294; l308; l309; l303; l300; l246] [o0; o106; o24; o27] [o3] ["cc"; "memory"] (Some (true, true));
Blk AArch32 "core_arch_ops_gcc_aarch32.hpp" 1162 "fetch_or" 64 64 false false [l1; l288; l310; l311; l299; l300; l246] [o0; o106; o24; o27] [o3] ["cc"; "memory"] (Some (false, false));
Blk AArch32 "core_arch_ops_gcc_aarch32.hpp" 1162 "fetch_or" 64 64 false true [l1; l288; l310; l311; l299; l300; l246] [o0; o106; o24; o27] [o3] ["cc"; "memory"] (Some (false, false));
Blk AArch32 "core_arch_ops_gcc_aarch32.hpp" 1162 "fetch_or" 64 64 false false [l1; l294; l310; l311; l299; l300; l246] [o0; o106; o24; o27] [o3] ["cc"; "memory"] (Some (true, false));
Blk AArch32 "core_arch_ops_gcc_aarch32.hpp" 1162 "fetch_or" 64 64 false true [l1; l294; l310; l311; l299; l300; l246] [o0; o106; o24; o27] [o3] ["cc"; "memory"] (Some (true, false));
Blk AArch32 "core_arch_ops_gcc_aarch32.hpp" 1162 "fetch_or" 64 64 false false [l1; l288; l310; l311; l303; l300; l246] [o0; o106; o24; o27] [o3] ["cc"; "memory"] (Some (false, true));
Blk AArch32 "core_arch_ops_gcc_aarch32.hpp" 1162 "fetch_or" 64 64 false true [l1; l288; l310; l311; l303; l300; l246] [o0; o106; o24; o27] [o3] ["cc"; "memory"] (Some (false, true));
Blk AArch32 "core_arch_ops_gcc_aarch32.hpp" 1162 "fetch_or" 64 64 false false [l1; l294; l310; l311; l303; l300; l246] [o0; o106; o24; o27] [o3] ["cc"; "memory"] (Some (true, true));
Blk AArch32 "core_arch_ops_gcc_aarch32.hpp" 1162 "fetch_or" 64 64 false true [l1; l294; l310; l311; l303; l300; l246] [o0; o106; o24; o27] [o3] ["cc"; "memory"] (Some (true, true));
Blk AArch32 "core_arch_ops_gcc_aarch32.hpp" 1189 "fetch_xor" 64 64 false false [l1; l288; l312; l313; l299; l300; l246] [o0; o106; o24; o27] [o3] ["cc"; "memory"] (Some (false, false));
Blk AArch32 "core_arch_ops_gcc_aarch32.hpp" 1189 "fetch_xor" 64 64 false true [l1; l288; l312; l313; l299; l300; l246] [o0; o106; o24; o27] [o3] ["cc"; "memory"] (Some (false, false));
Blk AArch32 "core_arch_ops_gcc_aarch32.hpp" 1189 "fetch_xor" 64 64 false false [l1; l294; l312; l313; l299; l300; l246] [o0; o106; o24; o27] [o3] ["cc"; "memory"] (Some (true, false));
Blk AArch32 "core_arch_ops_gcc_aarch32.hpp" 1189 "fetch_xor" 64 64 false true [l1; l294; l312; l313; l299; l300; l246] [o0; o106; o24; o27] [o3] ["cc"; "memory"] (Some (true, false));
Blk AArch32 "core_arch_ops_gcc_aarch32.hpp" 1189 "fetch_xor" 64 64 false false [l1; l288; l312; l313; l303; l300; l246] [o0; o106; o24; o27] [o3] ["cc"; "memory"] (Some (false, true));
Blk AArch32 "core_arch_ops_gcc_aarch32.hpp" 1189 "fetch_xor" 64 64 false true [l1; l288; l312; l313; l303; l300; l246] [o0; o106; o24; o27] [o3] ["cc"; "memory"] (Some (false, true));
Blk AArch32 "core_arch_ops_gcc_aarch32.hpp" 1189 "fetch_xor" 64 64 false false [l1; l294; l312; l313; l303; l300; l246] [o0; o106; o24; o27] [o3] ["cc"; "memory"] (Some (true, true));
Blk AArch32 "core_arch_ops_gcc_aarch32.hpp" 1189 "fetch_xor" 64 64 false true [l1; l294; l312; l313; l303; l300; l246] [o0; o106; o24; o27] [o3] ["cc"; "memory"] (Some (true, true));
Blk AArch32 "extra_ops_gcc_aarch32.hpp" 132 "fetch_negate" 8 8 false false [l1; l55; l580; l260; l245; l246] [o11; o17; o103; o12] [] ["cc"; "memory"] (Some (false, false));
Blk AArch32 "extra_ops_gcc_aarch32.hpp" 132 "fetch_negate" 8 8 false false [l1; l247; l580; l260; l245; l246] [o11; o17; o103; o12] [] ["cc"; "memory"] (Some (true, false));
Blk AArch32 "extra_ops_gcc_aarch32.hpp" 132 "fetch_negate" 8 8 false false [l1; l55; l580; l261; l245; l246] [o11; o17; o103; o12] [] ["cc"; "memory"] (Some (false, true));
Blk AArch32 "extra_ops_gcc_aarch32.hpp" 132 "fetch_negate" 8 8 false false [l1; l247; l580; l261; l245; l246] [o11; o17; o103; o12] [] ["cc"; "memory"] (Some (true, true));
Blk AArch32 "extra_ops_gcc_aarch32.hpp" 158 "negate" 8 8 false false [l1; l581; l582; l260; l245; l246] [o17; o103; o12] [] ["cc"; "memory"] (Some (false, false));
Blk AArch32 "extra_ops_gcc_aarch32.hpp" 158 "negate" 8 8 false false [l1; l583; l582; l260; l245; l246] [o17; o103; o12] [] ["cc"; "memory"] (Some (true, false));
Blk AArch32 "extra_ops_gcc_aarch32.hpp" 158 "negate" 8 8 false false [l1; l581; l582; l261; l245; l246] [o17; o103; o12] [] ["cc"; "memory"] (Some (false, true));
Blk AArch32 "extra_ops_gcc_aarch32.hpp" 158 "negate" 8 8 false false [l1; l583; l582; l261; l245; l246] [o17; o103; o12] [] ["cc"; "memory"] (Some (true, true));
Blk AArch32 "extra_ops_gcc_aarch32.hpp" 184 "add" 8 8 false false [l1; l581; l584; l260; l245; l246] [o17; o103; o12] [o18] ["cc"; "memory"] (Some (false, false));
Blk AArch32 "extra_ops_gcc_aarch32.hpp" 184 "add" 8 8 false false [l1; l583; l584; l260; l245; l246] [o17; o103; o12] [o18] ["cc"; "memory"] (Some (true, false));
Blk AArch32 "extra_ops_gcc_aarch32.hpp" 184 "add" 8 8 false false [l1; l581; l584; l261; l245; l246] [o17; o103; o12] [o18] ["cc"; "memory"] (Some (false, true));
Blk AArch32 "extra_ops_gcc_aarch32.hpp" 184 "add" 8 8 false false [l1; l583; l584; l261; l245; l246] [o17; o103; o12] [o18] ["cc"; "memory"] (Some (true, true));
Blk AArch32 "extra_ops_gcc_aarch32.hpp" 210 "sub" 8 8 false false [l1; l581; l585; l260; l245; l246] [o17; o103; o12] [o18] ["cc"; "memory"] (Some (false, false));
Blk AArch32 "extra_ops_gcc_aarch32.hpp" 210 "sub" 8 8 false false [l1; l583; l585; l260; l245; l246] [o17; o103; o12] [o18] ["cc"; "memory"] (Some (true, false));
Blk AArch32 "extra_ops_gcc_aarch32.hpp" 210 "sub" 8 8 false false [l1; l581; l585; l261; l245; l246] [o17; o103; o12] [o18] ["cc"; "memory"] (Some (false, true));
Blk AArch32 "extra_ops_gcc_aarch32.hpp" 210 "sub" 8 8 false false [l1; l583; l585; l261; l245; l246] [o17; o103; o12] [o18] ["cc"; "memory"] (Some (true, true));
Blk AArch32 "extra_ops_gcc_aarch32.hpp" 236 "bitwise_and" 8 8 false false [l1; l581; l586; l260; l245; l246] [o17; o103; o12] [o18] ["cc"; "memory"] (Some (false, false));
Blk AArch32 "extra_ops_gcc_aarch32.hpp" 236 "bitwise_and" 8 8 false false [l1; l583; l586; l260; l245; l246] [o17; o103; o12] [o18] ["cc"; "memory"] (Some (true, false));
Blk AArch32 "extra_ops_gcc_aarch32.hpp" 236 "bitwise_and" 8 8 false false [l1; l581; l586; l261; l245; l246] [o17; o103; o12] [o18] ["cc"; "memory"] (Some (false, true));
Blk AArch32 "extra_ops_gcc_aarch32.hpp" 236 "bitwise_and" 8 8 false false [l1; l583; l586; l261; l245; l246] [o17; o103; o12] [o18] ["cc"; "memory"] (Some (true, true));
Blk AArch32 "extra_ops_gcc_aarch32.hpp" 262 "bitwise_or" 8 8 false false [l1; l581; l587; l260; l245; l246] [o17; o103; o12] [o18] ["cc"; "memory"] (Some (false, false));
Blk AArch32 "extra_ops_gcc_aarch32.hpp" 262 "bitwise_or" 8 8 false false [l1; l583; l587; l260; l245; l246] [o17; o103; o12] [o18] ["cc"; "memory"] (Some (true, false));
Blk AArch32 "extra_ops_gcc_aarch32.hpp" 262 "bitwise_or" 8 8 false false [l1; l581; l587; l261; l245; l246] [o17; o103; o12] [o18] ["cc"; "memory"] (Some (false, true));
Blk AArch32 "extra_ops_gcc_aarch32.hpp" 262 "bitwise_or" 8 8 false false [l1; l583; l587; l261; l245; l246] [o17; o103; o12] [o18] ["cc"; "memory"] (Some (true, true));
Blk AArch32 "extra_ops_gcc_aarch32.hpp" 288 "bitwise_xor" 8 8 false false [l1; l581; l588; l260; l245; l246] [o17; o103; o12] [o18] ["cc"; "memory"] (Some (false, false));
Blk AArch32 "extra_ops_gcc_aarch32.hpp" 288 "bitwise_xor" 8 8 false false [l1; l583; l588; l260; l245; l246] [o17; o103; o12] [o18] ["cc"; "memory"] (Some (true, false));
Blk AArch32 "extra_ops_gcc_aarch32.hpp" 288 "bitwise_xor" 8 8 false false [l1; l581; l588; l261; l245; l246] [o17; o103; o12] [o18] ["cc"; "memory"] (Some (false, true));
Blk AArch32 "extra_ops_gcc_aarch32.hpp" 288 "bitwise_xor" 8 8 false false [l1; l583; l588; l261; l245; l246] [o17; o103; o12] [o18] ["cc"; "memory"] (Some (true, true));
Blk AArch32 "extra_ops_gcc_aarch32.hpp" 314 "fetch_complement" 8 8 false false [l1; l55; l589; l260; l245; l246] [o11; o17; o103; o12] [] ["cc"; "memory"] (Some (false, false));
Blk AArch32 "extra_ops_gcc_aarch32.hpp" 314 "fetch_complement" 8 8 false false [l1; l247; l589; l260; l245; l246] [o11; o17; o103; o12] [] ["cc"; "memory"] (Some (true, false));
Blk AArch32 "extra_ops_gcc_aarch32.hpp" 314 "fetch_complement" 8 8 false false [l1; l55; l589; l261; l245; l246] [o11; o17; o103; o12] [] ["cc"; "memory"] (Some (false, true));
Blk AArch32 "extra_ops_gcc_aarch32.hpp" 314 "fetch_complement" 8 8 false false [l1; l247; l589; l261; l245; l246] [o11; o17; o103; o12] [] ["cc"; "memory"] (Some (true, true));
Blk AArch32 "extra_ops_gcc_aarch32.hpp" 340 "bitwise_complement" 8 8 false false [l1; l581; l590; l260; l245; l246] [o17; o103; o12] [] ["cc"; "memory"] (Some (false, false));
Blk AArch32 "extra_ops_gcc_aarch32.hpp" 340 "bitwise_complement" 8 8 false false [l1; l583; l590; l260; l245; l246] [o17; o103; o12] [] ["cc"; "memory"] (Some (true, false));
Blk AArch32 "extra_ops_gcc_aarch32.hpp" 340 "bitwise_complement" 8 8 false false [l1; l581; l590; l261; l245; l246] [o17; o103; o12] [] ["cc"; "memory"] (Some (false, true));
Blk AArch32 "extra_ops_gcc_aarch32.hpp" 340 "bitwise_complement" 8 8 false false [l1; l583; l590; l261; l245; l246] [o17; o103; o12] [] ["cc"; "memory"] (Some (true, true));
Blk AArch32 "extra_ops_gcc_aarch32.hpp" 381 "fetch_negate" 16 16 false false [l1; l78; l580; l273; l245; l246] [o11; o17; o103; o12] [] ["cc"; "memory"] (Some (false, false));
Blk AArch32 "extra_ops_gcc_aarch32.hpp" 381 "fetch_negate" 16 16 false false [l1; l268; l580; l273; l245; l246] [o11; o17; o103; o12] [] ["cc"; "memory"] (Some (true, false));
Blk AArch32 "extra_ops_gcc_aarch32.hpp" 381 "fetch_negate" 16 16 false false [l1; l78; l580; l274; l245; l246] [o11; o17; o103; o12] [] ["cc"; "memory"] (Some (false, true));
Blk AArch32 "extra_ops_gcc_aarch32.hpp" 381 "fetch_negate" 16 16 false false [l1; l268; l580; l274; l245; l246] [o11; o17; o103; o12] [] ["cc"; "memory"] (Some (true, true));
Blk AArch32 "extra_ops_gcc_aarch32.hpp" 407 "negate" 16 16 false false [l1; l591; l582; l273; l245; l246] [o17; o103; o12] [] ["cc"; "memory"] (Some (false, false));
Blk AArch32 "extra_ops_gcc_aarch32.hpp" 407 "negate" 16 16 false false [l1; l592; l582; l273; l245; l246] [o17; o103; o12] [] ["cc"; "memory"] (Some (true, false));
Blk AArch32 "extra_ops_gcc_aarch32.hpp" 407 "negate" 16 16 false false [l1; l591; l582; l274; l245; l246] [o17; o103; o12] [] ["cc"; "memory"] (Some (false, true));
Blk AArch32 "extra_ops_gcc_aarch32.hpp" 407 "negate" 16 16 false false [l1; l592; l582; l274; l245; l246] [o17; o103; o12] [] ["cc"; "memory"] (Some (true, true));
Blk AArch32 "extra_ops_gcc_aarch32.hpp" 433 "add" 16 16 false false [l1; l591; l584; l273; l245; l246] [o17; o103; o12] [o18] ["cc"; "memory"] (Some (false, false));
Blk AArch32 "extra_ops_gcc_aarch32.hpp" 433 "add" 16 16 false false [l1; l592; l584; l273; l245; l246] [o17; o103; o12] [o18] ["cc"; "memory"] (Some (true, false));
Blk AArch32 "extra_ops_gcc_aarch32.hpp" 433 "add" 16 16 false false [l1; l591; l584; l274; l245; l246] [o17; o103; o12] [o18] ["cc"; "memory"] (Some (false, true));
Blk AArch32 "extra_ops_gcc_aarch32.hpp" 433 "add" 16 16 false false [l1; l592; l584; l274; l245; l246] [o17; o103; o12] [o18] ["cc"; "memory"] (Some (true, true));
Blk AArch32 "extra_ops_gcc_aarch32.hpp" 459 "sub" 16 16 false false [l1; l591; l585; l273; l245; l246] [o17; o103; o12] [o18] ["cc"; "memory"] (Some (false, false));
Blk AArch32 "extra_ops_gcc_aarch32.hpp" 459 "sub" 16 16 false false [l1; l592; l585; l273; l245; l246] [o17; o103; o12] [o18] ["cc"; "memory"] (Some (true, false));
Blk AArch32 "extra_ops_gcc_aarch32.hpp" 459 "sub" 16 16 false false [l1; l591; l585; l274; l245; l246] [o17; o103; o12] [o18] ["cc"; "memory"] (Some (false, true));
Blk AArch32 "extra_ops_gcc_aarch32.hpp" 459 "sub" 16 16 false false [l1; l592; l585; l274; l245; l246] [o17; o103; o12] [o18] ["cc"; "memory"] (Some (true, true));
Blk AArch32 "extra_ops_gcc_aarch32.hpp" 485 "bitwise_and" 16 16 false false [l1; l591; l586; l273; l245; l246] [o17; o103; o12] [o18] ["cc"; "memory"] (Some (false, false));
Blk AArch32 "extra_ops_gcc_aarch32.hpp" 485 "bitwise_and" 16 16 false false [l1; l592; l586; l273; l245; l246] [o17; o103; o12] [o18] ["cc"; "memory"] (Some (true, false));
Blk AArch32 "extra_ops_gcc_aarch32.hpp" 485 "bitwise_and" 16 16 false false [l1; l591; l586; l274; l245; l246] [o17; o103; o12] [o18] ["cc"; "memory"] (Some (false, true));
Blk AArch32 "extra_ops_gcc_aarch32.hpp" 485 "bitwise_and" 16 16 false false [l1; l592; l586; l274; l245; l246] [o17; o103; o12] [o18] ["cc"; "memory"] (Some (true, true));
Blk AArch32 "extra_ops_gcc_aarch32.hpp" 511 "bitwise_or" 16 16 false false [l1; l591; l587; l273; l245; l246] [o17; o103; o12] [o18] ["cc"; "memory"] (Some (false, false));
Blk AArch32 "extra_ops_gcc_aarch32.hpp" 511 "bitwise_or" 16 16 false false [l1; l592; l587; l273; l245; l246] [o17; o103; o12] [o18] ["cc"; "memory"] (Some (true, false));
Blk AArch32 "extra_ops_gcc_aarch32.hpp" 511 "bitwise_or" 16 16 false false [l1; l591; l587; l274; l245; l246] [o17; o103; o12] [o18] ["cc"; "memory"] (Some (false, true));
Blk AArch32 "extra_ops_gcc_aarch32.hpp" 511 "bitwise_or" 16 16 false false [l1; l592; l587; l274; l245; l246] [o17; o103; o12] [o18] ["cc"; "memory"] (Some (true, true));
Blk AArch32 "extra_ops_gcc_aarch32.hpp" 537 "bitwise_xor" 16 16 false false [l1; l591; l588; l273; l245; l246] [o17; o103; o12] [o18] ["cc"; "memory"] (Some (false, false));
Blk AArch32 "extra_ops_gcc_aarch32.hpp" 537 "bitwise_xor" 16 16 false false [l1; l592; l588; l273; l245; l246] [o17; o103; o12] [o18] ["cc"; "memory"] (Some (true, false));
Blk AArch32 "extra_ops_gcc_aarch32.hpp" 537 "bitwise_xor" 16 16 false false [l1; l591; l588; l274; l245; l246] [o17; o103; o12] [o18] ["cc"; "memory"] (Some (false, true));
Blk AArch32 "extra_ops_gcc_aarch32.hpp" 537 "bitwise_xor" 16 16 false false [l1; l592; l588; l274; l245; l246] [o17; o103; o12] [o18] ["cc"; "memory"] (Some (true, true));
Blk AArch32 "extra_ops_gcc_aarch32.hpp" 563 "fetch_complement" 16 16 false false [l1; l78; l589; l273; l245; l246] [o11; o17; o103; o12] [] ["cc"; "memory"] (Some (false, false));
Blk AArch32 "extra_ops_gcc_aarch32.hpp" 563 "fetch_complement" 16 16 false false [l1; l268; l589; l273; l245; l246] [o11; o17; o103; o12] [] ["cc"; "memory"] (Some (true, false));
Blk AArch32 "extra_ops_gcc_aarch32.hpp" 563 "fetch_complement" 16 16 false false [l1; l78; l589; l274; l245; l246] [o11; o17; o103; o12] [] ["cc"; "memory"] (Some (false, true));
Blk AArch32 "extra_ops_gcc_aarch32.hpp" 563 "fetch_complement" 16 16 false false [l1; l268; l589; l274; l245; l246] [o11; o17; o103; o12] [] ["cc"; "memory"] (Some (true, true));
Blk AArch32 "extra_ops_gcc_aarch32.hpp" 589 "bitwise_complement" 16 16 false false [l1; l591; l590; l273; l245; l246] [o17; o103; o12] [] ["cc"; "memory"] (Some (false, false));
Blk AArch32 "extra_ops_gcc_aarch32.hpp" 589 "bitwise_complement" 16 16 false false [l1; l592; l590; l273; l245; l246] [o17; o103; o12] [] ["cc"; "memory"] (Some (true, false));
Blk AArch32 "extra_ops_gcc_aarch32.hpp" 589 "bitwise_complement" 16 16 false false [l1; l591; l590; l274; l245; l246] [o17; o103; o12] [] ["cc"; "memory"] (Some (false, true));
Blk AArch32 "extra_ops_gcc_aarch32.hpp" 589 "bitwise_complement" 16 16 false false [l1; l592; l590; l274; l245; l246] [o17; o103; o12] [] ["cc"; "memory"] (Some (true, true));
Blk AArch32 "extra_ops_gcc_aarch32.hpp" 629 "fetch_negate" 32 32 false false [l1; l34; l580; l281; l245; l246] [o11; o17; o103; o12] [] ["cc"; "memory"] (Some (false, false));
Blk AArch32 "extra_ops_gcc_aarch32.hpp" 629 "fetch_negate" 32 32 false false [l1; l277; l580; l281; l245; l246] [o11; o17; o103; o12] [] ["cc"; "memory"] (Some (true, false));
Blk AArch32 "extra_ops_gcc_aarch32.hpp" 629 "fetch_negate" 32 32 false false [l1; l34; l580; l282; l245; l246] [o11; o17; o103; o12] [] ["cc"; "memory"] (Some (false, true));
Blk AArch32 "extra_ops_gcc_aarch32.hpp" 629 "fetch_negate" 32 32 false false [l1; l277; l580; l282; l245; l246] [o11; o17; o103; o12] [] ["cc"; "memory"] (Some (true, true));
Blk AArch32 "extra_ops_gcc_aarch32.hpp" 655 "negate" 32 32 false false [l1; l593; l582; l281; l245; l246] [o17; o103; o12] [] ["cc"; "memory"] (Some (false, false));
Blk AArch32 "extra_ops_gcc_aarch32.hpp" 655 "negate" 32 32 false false [l1; l594; l582; l281; l245; l246] [o17; o103; o12] [] ["cc"; "memory"] (Some (true, false));
Blk AArch32 "extra_ops_gcc_aarch32.hpp" 655 "negate" 32 32 false false [l1; l593; l582; l282; l245; l246] [o17; o103; o12] [] ["cc"; "memory"] (Some (false, true));
Blk AArch32 "extra_ops_gcc_aarch32.hpp" 655 "negate" 32 32 false false [l1; l594; l582; l282; l245; l246] [o17; o103; o12] [] ["cc"; "memory"] (Some (true, true));
Blk AArch32 "extra_ops_gcc_aarch32.hpp" 681 "add" 32 32 false false [l1; l593; l584; l281; l245; l246] [o17; o103; o12] [o18] ["cc"; "memory"] (Some (false, false));
Blk AArch32 "extra_ops_gcc_aarch32.hpp" 681 "add" 32 32 false false [l1; l594; l584; l281; l245; l246] [o17; o103; o12] [o18] ["cc"; "memory"] (Some (true, false));
Blk AArch32 "extra_ops_gcc_aarch32.hpp" 681 "add" 32 32 false false [l1; l593; l584; l282; l245; l246] [o17; o103; o12] [o18] ["cc"; "memory"] (Some (false, true));
Blk AArch32 "extra_ops_gcc_aarch32.hpp" 681 "add" 32 32 false false [l1; l594; l584; l282; l245; l246] [o17; o103; o12] [o18] ["cc"; "memory"] (Some (true, true));
Blk AArch32 "extra_ops_gcc_aarch32.hpp" 707 "sub" 32 32 false false [l1; l593; l585; l281; l245; l246] [o17; o103; o12] [o18] ["cc"; "memory"] (Some (false, false));
Blk AArch32 "extra_ops_gcc_aarch32.hpp" 707 "sub" 32 32 false false [l1; l594; l585; l281; l245; l246] [o17; o103; o12] [o18] ["cc"; "memory"] (Some (true, false));
Blk AArch32 "extra_ops_gcc_aarch32.hpp" 707 "sub" 32 32 false false [l1; l593; l585; l282; l245; l246] [o17; o103; o12] [o18] ["cc"; "memory"] (Some (false, true));
Blk AArch32 "extra_ops_gcc_aarch32.hpp" 707 "sub" 32 32 false false [l1; l594; l585; l282; l245; l246] [o17; o103; o12] [o18] ["cc"; "memory"] (Some (true, true));
Blk AArch32 "extra_ops_gcc_aarch32.hpp" 733 "bitwise_and" 32 32 false false [l1; l593; l586; l281; l245; l246] [o17; o103; o12] [o18] ["cc"; "memory"] (Some (false, false));
Blk AArch32 "extra_ops_gcc_aarch32.hpp" 733 "bitwise_and" 32 32 false false [l1; l594; l586; l281; l245; l246] [o17; o103; o12] [o18] ["cc"; "memory"] (Some (true, false));
Blk AArch32 "extra_ops_gcc_aarch32.hpp" 733 "bitwise_and" 32 32 false false [l1; l593; l586; l282; l245; l246] [o17; o103; o12] [o18] ["cc"; "memory"] (Some (false, true));
Blk AArch32 "extra_ops_gcc_aarch32.hpp" 733 "bitwise_and" 32 32 false false [l1; l594; l586; l282; l245; l246] [o17; o103; o12] [o18] ["cc"; "memory"] (Some (true, true));
Blk AArch32 "extra_ops_gcc_aarch32.hpp" 759 "bitwise_or" 32 32 false false [l1; l593; l587; l281; l245; l246] [o17; o103; o12] [o18] ["cc"; "memory"] (Some (false, false));
Blk AArch32 "extra_ops_gcc_aarch32.hpp" 759 "bitwise_or" 32 32 false false [l1; l594; l587; l281; l245; l246] [o17; o103; o12] [o18] ["cc"; "memory"] (Some (true, false));
Blk AArch32 "extra_ops_gcc_aarch32.hpp" 759 "bitwise_or" 32 32 false false [l1; l593; l587; l282; l245; l246] [o17; o103; o12] [o18] ["cc"; "memory"] (Some (false, true));
Blk AArch32 "extra_ops_gcc_aarch32.hpp" 759 "bitwise_or" 32 32 false false [l1; l594; l587; l282; l245; l246] [o17; o103; o12] [o18] ["cc"; "memory"] (Some (true, true));
Blk AArch32 "extra_ops_gcc_aarch32.hpp" 785 "bitwise_xor" 32 32 false false [l1; l593; l588; l281; l245; l246] [o17; o103; o12] [o18] ["cc"; "memory"] (Some (false, false));
Blk AArch32 "extra_ops_gcc_aarch32.hpp" 785 "bitwise_xor" 32 32 false false [l1; l594; l588; l281; l245; l246] [o17; o103; o12] [o18] ["cc"; "memory"] (Some (true, false));
Blk AArch32 "extra_ops_gcc_aarch32.hpp" 785 "bitwise_xor" 32 32 false false [l1; l593; l588; l282; l245; l246] [o17; o103; o12] [o18] ["cc"; "memory"] (Some (false, true));
Blk AArch32 "extra_ops_gcc_aarch32.hpp" 785 "bitwise_xor" 32 32 false false [l1; l594; l588; l282; l245; l246] [o17; o103; o12] [o18] ["cc"; "memory"] (Some (true, true));
Blk AArch32 "extra_ops_gcc_aarch32.hpp" 811 "fetch_complement" 32 32 false false [l1; l34; l589; l281; l245; l246] [o11; o17; o103; o12] [] ["cc"; "memory"] (Some (false, false));
Blk AArch32 "extra_ops_gcc_aarch32.hpp" 811 "fetch_complement" 32 32 false false [l1; l277; l589; l281; l245; l246] [o11; o17; o103; o12] [] ["cc"; "memory"] (Some (true, false));
Blk AArch32 "extra_ops_gcc_aarch32.hpp" 811 "fetch_complement" 32 32 false false [l1; l34; l589; l282; l245; l246] [o11; o17; o103; o12] [] ["cc"; "memory"] (Some (false, true));
Blk AArch32 "extra_ops_gcc_aarch32.hpp" 811 "fetch_complement" 32 32 false false [l1; l277; l589; l282; l245; l246] [o11; o17; o103; o12] [] ["cc"; "memory"] (Some (true, true));
Blk AArch32 "extra_ops_gcc_aarch32.hpp" 837 "bitwise_complement" 32 32 false false [l1; l593; l590; l281; l245; l246] [o17; o103; o12] [] ["cc"; "memory"] (Some (false, false));
Blk AArch32 "extra_ops_gcc_aarch32.hpp" 837 "bitwise_complement" 32 32 false false [l1; l594; l590; l281; l245; l246] [o17; o103; o12] [] ["cc"; "memory"] (Some (true, false));
Blk AArch32 "extra_ops_gcc_aarch32.hpp" 837 "bitwise_complement" 32 32 false false [l1; l593; l590; l282; l245; l246] [o17; o103; o12] [] ["cc"; "memory"] (Some (false, true));
Blk AArch32 "extra_ops_gcc_aarch32.hpp" 837 "bitwise_complement" 32 32 false false [l1; l594; l590; l282; l245; l246] [o17; o103; o12] [] ["cc"; "memory"] (Some (true, true));
Blk AArch32 "extra_ops_gcc_aarch32.hpp" 877 "fetch_negate" 64 64 false false [l1; l288; l595; l596; l597; l598; l299; l300; l246] [o0; o106; o24; o27] [] ["cc"; "memory"] (Some (false, false));
Blk AArch32 "extra_ops_gcc_aarch32.hpp" 877 "fetch_negate" 64 64 false true [l1; l288; l595; l596; l599; l600; l299; l300; l246] [o0; o106; o24; o27] [] ["cc"; "memory"] (Some (false, false));
Blk AArch32 "extra_ops_gcc_aarch32.hpp" 877 "fetch_negate" 64 64 false false [l1; l294; l595; l596; l597; l598; l299; l300; l246] [o0; o106; o24; o27] [] ["cc"; "memory"] (Some (true, false));
Blk AArch32 "extra_ops_gcc_aarch32.hpp" 877 "fetch_negate" 64 64 false true [l1; l294; l595; l596; l599; l600; l299; l300; l246] [o0; o106; o24; o27] [] ["cc"; "memory"] (Some (true, false));
Blk AArch32 "extra_ops_gcc_aarch32.hpp" 877 "fetch_negate" 64 64 false false [l1; l288; l595; l596; l597; l598; l303; l300; l246] [o0; o106; o24; o27] [] ["cc"; "memory"] (Some (false, true));
Blk AArch32 "extra_ops_gcc_aarch32.hpp" 877 "fetch_negate" 64 64 false true [l1; l288; l595; l596; l599; l600; l303; l300; l246] [o0; o106; o24; o27] [] ["cc"; "memory"] (Some (false, true));
Blk AArch32 "extra_ops_gcc_aarch32.hpp" 877 "fetch_negate" 64 64 false false [l1; l294; l595; l596; l597; l598; l303; l300; l246] [o0; o106; o24; o27] [] ["cc"; "memory"] (Some (true, true));
Blk AArch32 "extra_ops_gcc_aarch32.hpp" 877 "fetch_negate" 64 64 false true [l1; l294; l595; l596; l599; l600; l303; l300; l246] [o0; o106; o24; o27] [] ["cc"; "memory"] (Some (true, true));
Blk AArch32 "extra_ops_gcc_aarch32.hpp" 906 "negate" 64 64 false false [l1; l288; l601; l602; l603; l604; l605; l300; l246] [o27; o106; o24] [] ["cc"; "memory"] (Some (false, false));
Blk AArch32 "extra_ops_gcc_aarch32.hpp" 906 "negate" 64 64 false true [l1; l288; l601; l602; l606; l607; l605; l300; l246] [o27; o106; o24] [] ["cc"; "memory"] (Some (false, false));
Blk AArch32 "extra_ops_gcc_aarch32.hpp" 906 "negate" 64 64 false false [l1; l294; l601; l602; l603; l604; l605; l300; l246] [o27; o106; o24] [] ["cc"; "memory"] (Some (true, false));
Blk AArch32 "extra_ops_gcc_aarch32.hpp" 906 "negate" 64 64 false true [l1; l294; l601; l602; l606; l607; l605; l300; l246] [o27; o106; o24] [] ["cc"; "memory"] (Some (true, false));
Blk AArch32 "extra_ops_gcc_aarch32.hpp" 906 "negate" 64 64 false false [l1; l288; l601; l602; l603; l604; l608; l300; l246] [o27; o106; o24] [] ["cc"; "memory"] (Some (false, true));
Blk AArch32 "extra_ops_gcc_aarch32.hpp" 906 "negate" 64 64 false true [l1; l288; l601; l602; l606; l607; l608; l300; l246] [o27; o106; o24] [] ["cc"; "memory"] (Some (false, true));
Blk AArch32 "extra_ops_gcc_aarch32.hpp" 906 "negate" 64 64 false false [l1; l294; l601; l602; l603; l604; l608; l300; l246] [o27; o106; o24] [] ["cc"; "memory"] (Some (true, true));
Blk AArch32 "extra_ops_gcc_aarch32.hpp" 906 "negate" 64 64 false true [l1; l294; l601; l602; l606; l607; l608; l300; l246] [o27; o106; o24] [] ["cc"; "memory"] (Some (true, true));
Blk AArch32 "extra_ops_gcc_aarch32.hpp" 935 "add" 64 64 false false [l1; l288; l609; l610; l605; l300; l246] [o27; o106; o24] [o3] ["cc"; "memory"] (Some (false, false));
Blk AArch32 "extra_ops_gcc_aarch32.hpp" 935 "add" 64 64 false true [l1; l288; l611; l612; l605; l300; l246] [o27; o106; o24] [o3] ["cc"; "memory"] (Some (false, false));
Blk AArch32 "extra_ops_gcc_aarch32.hpp" 935 "add" 64 64 false false [l1; l294; l609; l610; l605; l300; l246] [o27; o106; o24] [o3] ["cc"; "memory"] (Some (true, false));
Blk AArch32 "extra_ops_gcc_aarch32.hpp" 935 "add" 64 64 false true [l1; l294; l611; l612; l605; l300; l246] [o27; o106; o24] [o3] ["cc"; "memory"] (Some (true, false));
Blk AArch32 "extra_ops_gcc_aarch32.hpp" 935 "add" 64 64 false false [l1; l288; l609; l610; l608; l300; l246] [o27; o106; o24] [o3] ["cc"; "memory"] (Some (false, true));
Blk AArch32 "extra_ops_gcc_aarch32.hpp" 935 "add" 64 64 false true [l1; l288; l611; l612; l608; l300; l246] [o27; o106; o24] [o3] ["cc"; "memory"] (Some (false, true));
Blk AArch32 "extra_ops_gcc_aarch32.hpp" 935 "add" 64 64 false false [l1; l294; l609; l610; l608; l300; l246] [o27; o106; o24] [o3] ["cc"; "memory"] (Some (true, true));
Blk AArch32 "extra_ops_gcc_aarch32.hpp" 935 "add" 64 64 false true [l1; l294; l611; l612; l608; l300; l246] [o27; o106; o24] [o3] ["cc"; "memory"] (Some (true, true));
Blk AArch32 "extra_ops_gcc_aarch32.hpp" 962 "sub" 64 64 false false [l1; l288; l613; l614; l605; l300; l246] [o27; o106; o24] [o3] ["cc"; "memory"] (Some (false, false));
Blk AArch32 "extra_ops_gcc_aarch32.hpp" 962 "sub" 64 64 false true [l1; l288; l615; l616; l605; l300; l246] [o27; o106; o24] [o3] ["cc"; "memory"] (Some (false, false));
Blk AArch32 "extra_ops_gcc_aarch32.hpp" 962 "sub" 64 64 false false [l1; l294; l613; l614; l605; l300; l246] [o27; o106; o24] [o3] ["cc"; "memory"] (Some (true, false));
Blk AArch32 "extra_ops_gcc_aarch32.hpp" 962 "sub" 64 64 false true [l1; l294; l615; l616; l605; l300; l246] [o27; o106; o24] [o3] ["cc"; "memory"] (Some (true, false));
Blk AArch32 "extra_ops_gcc_aarch32.hpp" 962 "sub" 64 64 false false [l1; l288; l613; l614; l608; l300; l246] [o27; o106; o24] [o3] ["cc"; "memory"] (Some (false, true));
Blk AArch32 "extra_ops_gcc_aarch32.hpp" 962 "sub" 64 64 false true [l1; l288; l615; l616; l608; l300; l246] [o27; o106; o24] [o3] ["cc"; "memory"] (Some (false, true));
Blk AArch32 "extra_ops_gcc_aarch32.hpp" 962 "sub" 64 64 false false [l1; l294; l613; l614; l608; l300; l246] [o27; o106; o24] [o3] ["cc"; "memory"] (Some (true, true));
Blk AArch32 "extra_ops_gcc_aarch32.hpp" 962 "sub" 64 64 false true [l1; l294; l615; l616; l608; l300; l246] [o27; o106; o24] [o3] ["cc"; "memory"] (Some (true, true));
Blk AArch32 "extra_ops_gcc_aarch32.hpp" 989 "bitwise_and" 64 64 false false [l1; l288; l617; l618; l605; l300; l246] [o27; o106; o24] [o3] ["cc"; "memory"] (Some (false, false));
Blk AArch32 "extra_ops_gcc_aarch32.hpp" 989 "bitwise_and" 64 64 false true [l1; l288; l617; l618; l605; l300; l246] [o27; o106; o24] [o3] ["cc"; "memory"] (Some (false, false));
Blk AArch32 "extra_ops_gcc_aarch32.hpp" 989 "bitwise_and" 64 64 false false [l1; l294; l617; l618; l605; l300; l246] [o27; o106; o24] [o3] ["cc"; "memory"] (Some (true, false));
Blk AArch32 "extra_ops_gcc_aarch32.hpp" 989 "bitwise_and" 64 64 false true [l1; l294; l617; l618; l605; l300; l246] [o27; o106; o24] [o3] ["cc"; "memory"] (Some (true, false));
Blk AArch32 "extra_ops_gcc_aarch32.hpp" 989 "bitwise_and" 64 64 false false [l1; l288; l617; l618; l608; l300; l246] [o27; o106; o24] [o3] ["cc"; "memory"] (Some (false, true));
Blk AArch32 "extra_ops_gcc_aarch32.hpp" 989 "bitwise_and" 64 64 false true [l1; l288; l617; l618; l608; l300; l246] [o27; o106; o24] [o3] ["cc"; "memory"] (Some (false, true));
Blk AArch32 "extra_ops_gcc_aarch32.hpp" 989 "bitwise_and" 64 64 false false [l1; l294; l617; l618; l608; l300; l246] [o27; o106; o24] [o3] ["cc"; "memory"] (Some (true, true));
Blk AArch32 "extra_ops_gcc_aarch32.hpp" 989 "bitwise_and" 64 64 false true [l1; l294; l617; l618; l608; l300; l246] [o27; o106; o24] [o3] ["cc"; "memory"] (Some (true, true));
Blk AArch32 "extra_ops_gcc_aarch32.hpp" 1016 "bitwise_or" 64 64 false false [l1; l288; l619; l620; l605; l300; l246] [o27; o106; o24] [o3] ["cc"; "memory"] (Some (false, false));
Blk AArch32 "extra_ops_gcc_aarch32.hpp" 1016 "bitwise_or" 64 64 false true [l1; l288; l619; l620; l605; l300; l246] [o27; o106; o24] [o3] ["cc"; "memory"] (Some (false, false));
Blk AArch32 "extra_ops_gcc_aarch32.hpp" 1016 "bitwise_or" 64 64 false false [l1; l294; l619; l620; l605; l300; l246] [o27; o106; o24] [o3] ["cc"; "memory"] (Some (true, false));
Blk AArch32 "extra_ops_gcc_aarch32.hpp" 1016 "bitwise_or" 64 64 false true [l1; l294; l619; l620; l605; l300; l246] [o27; o106; o24] [o3] ["cc"; "memory"] (Some (true, false));
Blk AArch32 "extra_ops_gcc_aarch32.hpp" 1016 "bitwise_or" 64 64 false false [l1; l288; l619; l620; l608; l300; l246] [o27; o106; o24] [o3] ["cc"; "memory"] (Some (false, true));
Blk AArch32 "extra_ops_gcc_aarch32.hpp" 1016 "bitwise_or" 64 64 false true [l1; l288; l619; l620; l608; l300; l246] [o27; o106; o24] [o3] ["cc"; "memory"] (Some (false, true));
Blk AArch32 "extra_ops_gcc_aarch32.hpp" 1016 "bitwise_or" 64 64 false false [l1; l294; l619; l620; l608; l300; l246] [o27; o106; o24] [o3] ["cc"; "memory"] (Some (true, true));
Blk AArch32 "extra_ops_gcc_aarch32.hpp" 1016 "bitwise_or" 64 64 false true [l1; l294; l619; l620; l608; l300; l246] [o27; o106; o24] [o3] ["cc"; "memory"] (Some (true, true));
Blk AArch32 "extra_ops_gcc_aarch32.hpp" 1043 "bitwise_xor" 64 64 false false [l1; l288; l621; l622; l605; l300; l246] [o27; o106; o24] [o3] ["cc"; "memory"] (Some (false, false));
Blk AArch32 "extra_ops_gcc_aarch32.hpp" 1043 "bitwise_xor" 64 64 false true [l1; l288; l621; l622; l605; l300; l246] [o27; o106; o24] [o3] ["cc"; "memory"] (Some (false, false));
Blk AArch32 "extra_ops_gcc_aarch32.hpp" 1043 "bitwise_xor" 64 64 false false [l1; l294; l621; l622; l605; l300; l246] [o27; o106; o24] [o3] ["cc"; "memory"] (Some (true, false));
Blk AArch32 "extra_ops_gcc_aarch32.hpp" 1043 "bitwise_xor" 64 64 false true [l1; l294; l621; l622; l605; l300; l246] [o27; o106; o24] [o3] ["cc"; "memory"] (Some (true, false));
Blk AArch32 "extra_ops_gcc_aarch32.hpp" 1043 "bitwise_xor" 64 64 false false [l1; l288; l621; l622; l608; l300; l246] [o27; o106; o24] [o3] ["cc"; "memory"] (Some (false, true));
Blk AArch32 "extra_ops_gcc_aarch32.hpp" 1043 "bitwise_xor" 64 64 false true [l1; l288; l621; l622; l608; l300; l246] [o27; o106; o24] [o3] ["cc"; "memory"] (Some (false, true));
Blk AArch32 "extra_ops_gcc_aarch32.hpp" 1043 "bitwise_xor" 64 64 false false [l1; l294; l621; l622; l608; l300; l246] [o27; o106; o24] [o3] ["cc"; "memory"] (Some (true, true));
Blk AArch32 "extra_ops_gcc_aarch32.hpp" 1043 "bitwise_xor" 64 64 false true [l1; l294; l621; l622; l608; l300; l246] [o27; o106; o24] [o3] ["cc"; "memory"] (Some (true, true));
Blk AArch32 "extra_ops_gcc_aarch32.hpp" 1070 "fetch_complement" 64 64 false false [l1; l288; l595; l596; l299; l300; l246] [o0; o106; o24; o27] [] ["cc"; "memory"] (Some (false, false));
Blk AArch32 "extra_ops_gcc_aarch32.hpp" 1070 "fetch_complement" 64 64 false true [l1; l288; l595; l596; l299; l300; l246] [o0; o106; o24; o27] [] ["cc"; "memory"] (Some (false, false));
Blk AArch32 "extra_ops_gcc_aarch32.hpp" 1070 "fetch_complement" 64 64 false false [l1; l294; l595; l596; l299; l300; l246] [o0; o106; o24; o27] [] ["cc"; "memory"] (Some (true, false));
Blk AArch32 "extra_ops_gcc_aarch32.hpp" 1070 "fetch_complement" 64 64 false true [l1; l294; l595; l596; l299; l300; l246] [o0; o106; o24; o27] [] ["cc"; "memory"] (Some (true, false));
Blk AArch32 "extra_ops_gcc_aarch32.hpp" 1070 "fetch_complement" 64 64 false false [l1; l288; l595; l596; l303; l300; l246] [o0; o106; o24; o27] [] ["cc"; "memory"] (Some (false, true));
Blk AArch32 "extra_ops_gcc_aarch32.hpp" 1070 "fetch_complement" 64 64 false true [l1; l288; l595; l596; l303; l300; l246] [o0; o106; o24; o27] [] ["cc"; "memory"] (Some (false, true));
Blk AArch32 "extra_ops_gcc_aarch32.hpp" 1070 "fetch_complement" 64 64 false false [l1; l294; l595; l596; l303; l300; l246] [o0; o106; o24; o27] [] ["cc"; "memory"] (Some (true, true));
Blk AArch32 "extra_ops_gcc_aarch32.hpp" 1070 "fetch_complement" 64 64 false true [l1; l294; l595; l596; l303; l300; l246] [o0; o106; o24; o27] [] ["cc"; "memory"] (Some (true, true));
Blk AArch32 "extra_ops_gcc_aarch32.hpp" 1097 "bitwise_complement" 64 64 false false [l1; l288; l601; l602; l605; l300; l246] [o27; o106; o24] [] ["cc"; "memory"] (Some (false, false));
Blk AArch32 "extra_ops_gcc_aarch32.hpp" 1097 "bitwise_complement" 64 64 false true [l1; l288; l601; l602; l605; l300; l246] [o27; o106; o24] [] ["cc"; "memory"] (Some (false, false));
Blk AArch32 "extra_ops_gcc_aarch32.hpp" 1097 "bitwise_complement" 64 64 false false [l1; l294; l601; l602; l605; l300; l246] [o27; o106; o24] [] ["cc"; "memory"] (Some (true, false));
Blk AArch32 "extra_ops_gcc_aarch32.hpp" 1097 "bitwise_complement" 64 64 false true [l1; l294; l601; l602; l605; l300; l246] [o27; o106; o24] [] ["cc"; "memory"] (Some (true, false));
Blk AArch32 "extra_ops_gcc_aarch32.hpp" 1097 "bitwise_complement" 64 64 false false [l1; l288; l601; l602; l608; l300; l246] [o27; o106; o24] [] ["cc"; "memory"] (Some (false, true));
Blk AArch32 "extra_ops_gcc_aarch32.hpp" 1097 "bitwise_complement" 64 64 false true [l1; l288; l601; l602; l608; l300; l246] [o27; o106; o24] [] ["cc"; "memory"] (Some (false, true));
Blk AArch32 "extra_ops_gcc_aarch32.hpp" 1097 "bitwise_complement" 64 64 false false [l1; l294; l601; l602; l608; l300; l246] [o27; o106; o24] [] ["cc"; "memory"] (Some (true, true));
Blk AArch32 "extra_ops_gcc_aarch32.hpp" 1097 "bitwise_complement" 64 64 false true [l1; l294; l601; l602; l608; l300; l246] [o27; o106; o24] [] ["cc"; "memory"] (Some (true, true))].

Definition blocks_aarch64 : list block := [
Blk AArch64 "core_arch_ops_gcc_aarch64.hpp" 64 "store" 8 8 false false [l314] [o100] [o13] ["memory"] None;
Blk AArch64 "core_arch_ops_gcc_aarch64.hpp" 86 "load" 8 8 false false [l315] [o101] [o102] ["memory"] None;
Blk AArch64 "core_arch_ops_gcc_aarch64.hpp" 97 "load" 8 8 false false [l316] [o101] [o102] ["memory"] None;
Blk AArch64 "core_arch_ops_gcc_aarch64.hpp" 120 "exchange" 8 8 false false [l317] [o12; o108] [o13] ["memory"] (Some (false, false));
Blk AArch64 "core_arch_ops_gcc_aarch64.hpp" 120 "exchange" 8 8 false false [l318] [o12; o108] [o13] ["memory"] (Some (true, false));
Blk AArch64 "core_arch_ops_gcc_aarch64.hpp" 120 "exchange" 8 8 false false [l319] [o12; o108] [o13] ["memory"] (Some (false, true));
Blk AArch64 "core_arch_ops_gcc_aarch64.hpp" 120 "exchange" 8 8 false false [l320] [o12; o108] [o13] ["memory"] (Some (true, true));
Blk AArch64 "core_arch_ops_gcc_aarch64.hpp" 131 "exchange" 8 8 false false [l1; l321; l322; l323] [o103; o12; o11] [o13] ["memory"] (Some (false, false));
Blk AArch64 "core_arch_ops_gcc_aarch64.hpp" 131 "exchange" 8 8 false false [l1; l324; l322; l323] [o103; o12; o11] [o13] ["memory"] (Some (true, false));
Blk AArch64 "core_arch_ops_gcc_aarch64.hpp" 131 "exchange" 8 8 false false [l1; l321; l325; l323] [o103; o12; o11] [o13] ["memory"] (Some (false, true));
Blk AArch64 "core_arch_ops_gcc_aarch64.hpp" 131 "exchange" 8 8 false false [l1; l324; l325; l323] [o103; o12; o11] [o13] ["memory"] (Some (true, true));
Blk AArch64 "core_arch_ops_gcc_aarch64.hpp" 159 "compare_exchange_weak" 8 8 false false [l326] [o12; o109] [o16] ["memory"] (Some (false, false));
Blk AArch64 "core_arch_ops_gcc_aarch64.hpp" 159 "compare_exchange_weak" 8 8 false false [l327] [o12; o109] [o16] ["memory"] (Some (true, false));
Blk AArch64 "core_arch_ops_gcc_aarch64.hpp" 159 "compare_exchange_weak" 8 8 false false [l328] [o12; o109] [o16] ["memory"] (Some (false, true));
Blk AArch64 "core_arch_ops_gcc_aarch64.hpp" 159 "compare_exchange_weak" 8 8 false false [l329] [o12; o109] [o16] ["memory"] (Some (true, true));
Blk AArch64 "core_arch_ops_gcc_aarch64.hpp" 173 "compare_exchange_weak" 8 8 false false [l330; l331; l321; l332; l333; l334; l335; l1] [o104; o12; o11] [o16; o105] ["cc"; "memory"] (Some (false, false));
Blk AArch64 "core_arch_ops_gcc_aarch64.hpp" 173 "compare_exchange_weak" 8 8 false false [l330; l331; l324; l332; l333; l334; l335; l1] [o104; o12; o11] [o16; o105] ["cc"; "memory"] (Some (true, false));
Blk AArch64 "core_arch_ops_gcc_aarch64.hpp" 173 "compare_exchange_weak" 8 8 false false [l330; l331; l321; l332; l333; l336; l335; l1] [o104; o12; o11] [o16; o105] ["cc"; "memory"] (Some (false, true));
Blk AArch64 "core_arch_ops_gcc_aarch64.hpp" 173 "compare_exchange_weak" 8 8 false false [l330; l331; l324; l332; l333; l336; l335; l1] [o104; o12; o11] [o16; o105] ["cc"; "memory"] (Some (true, true));
Blk AArch64 "core_arch_ops_gcc_aarch64.hpp" 207 "compare_exchange_strong" 8 8 false false [l326] [o12; o109] [o16] ["memory"] (Some (false, false));
Blk AArch64 "core_arch_ops_gcc_aarch64.hpp" 207 "compare_exchange_strong" 8 8 false false [l327] [o12; o109] [o16] ["memory"] (Some (true, false));
Blk AArch64 "core_arch_ops_gcc_aarch64.hpp" 207 "compare_exchange_strong" 8 8 false false [l328] [o12; o109] [o16] ["memory"] (Some (false, true));
Blk AArch64 "core_arch_ops_gcc_aarch64.hpp" 207 "compare_exchange_strong" 8 8 false false [l329] [o12; o109] [o16] ["memory"] (Some (true, true));
Blk AArch64 "core_arch_ops_gcc_aarch64.hpp" 221 "compare_exchange_strong" 8 8 false false [l330; l1; l321; l332; l337; l334; l338; l15; l339] [o104; o12; o11] [o16; o105] ["cc"; "memory"] (Some (false, false));
Blk AArch64 "core_arch_ops_gcc_aarch64.hpp" 221 "compare_exchange_strong" 8 8 false false [l330; l1; l324; l332; l337; l334; l338; l15; l339] [o104; o12; o11] [o16; o105] ["cc"; "memory"] (Some (true, false));
Blk AArch64 "core_arch_ops_gcc_aarch64.hpp" 221 "compare_exchange_strong" 8 8 false false [l330; l1; l321; l332; l337; l336; l338; l15; l339] [o104; o12; o11] [o16; o105] ["cc"; "memory"] (Some (false, true));
Blk AArch64 "core_arch_ops_gcc_aarch64.hpp" 221 "compare_exchange_strong" 8 8 false false [l330; l1; l324; l332; l337; l336; l338; l15; l339] [o104; o12; o11] [o16; o105] ["cc"; "memory"] (Some (true, true));
Blk AArch64 "core_arch_ops_gcc_aarch64.hpp" 253 "fetch_add" 8 8 false false [l340] [o12; o108] [o13] ["memory"] (Some (false, false));
Blk AArch64 "core_arch_ops_gcc_aarch64.hpp" 253 "fetch_add" 8 8 false false [l341] [o12; o108] [o13] ["memory"] (Some (true, false));
Blk AArch64 "core_arch_ops_gcc_aarch64.hpp" 253 "fetch_add" 8 8 false false [l342] [o12; o108] [o13] ["memory"] (Some (false, true));
Blk AArch64 "core_arch_ops_gcc_aarch64.hpp" 253 "fetch_add" 8 8 false false [l343] [o12; o108] [o13] ["memory"] (Some (true, true));
Blk AArch64 "core_arch_ops_gcc_aarch64.hpp" 265 "fetch_add" 8 8 false false [l1; l321; l344; l345; l323] [o103; o17; o12; o11] [o18] ["memory"] (Some (false, false));
Blk AArch64 "core_arch_ops_gcc_aarch64.hpp" 265 "fetch_add" 8 8 false false [l1; l324; l344; l345; l323] [o103; o17; o12; o11] [o18] ["memory"] (Some (true, false));
Blk AArch64 "core_arch_ops_gcc_aarch64.hpp" 265 "fetch_add" 8 8 false false [l1; l321; l344; l346; l323] [o103; o17; o12; o11] [o18] ["memory"] (Some (false, true));
Blk AArch64 "core_arch_ops_gcc_aarch64.hpp" 265 "fetch_add" 8 8 false false [l1; l324; l344; l346; l323] [o103; o17; o12; o11] [o18] ["memory"] (Some (true, true));
Blk AArch64 "core_arch_ops_gcc_aarch64.hpp" 293 "fetch_sub" 8 8 false false [l340] [o12; o108] [o13] ["memory"] (Some (false, false));
Blk AArch64 "core_arch_ops_gcc_aarch64.hpp" 293 "fetch_sub" 8 8 false false [l341] [o12; o108] [o13] ["memory"] (Some (true, false));
Blk AArch64 "core_arch_ops_gcc_aarch64.hpp" 293 "fetch_sub" 8 8 false false [l342] [o12; o108] [o13] ["memory"] (Some (false, true));
Blk AArch64 "core_arch_ops_gcc_aarch64.hpp" 293 "fetch_sub" 8 8 false false [l343] [o12; o108] [o13] ["memory"] (Some (true, true));
Blk AArch64 "core_arch_ops_gcc_aarch64.hpp" 306 "fetch_sub" 8 8 false false [l1; l321; l347; l345; l323] [o103; o17; o12; o11] [o18] ["memory"] (Some (false, false));
Blk AArch64 "core_arch_ops_gcc_aarch64.hpp" 306 "fetch_sub" 8 8 false false [l1; l324; l347; l345; l323] [o103; o17; o12; o11] [o18] ["memory"] (Some (true, false));
Blk AArch64 "core_arch_ops_gcc_aarch64.hpp" 306 "fetch_sub" 8 8 false false [l1; l321; l347; l346; l323] [o103; o17; o12; o11] [o18] ["memory"] (Some (false, true));
Blk AArch64 "core_arch_ops_gcc_aarch64.hpp" 306 "fetch_sub" 8 8 false false [l1; l324; l347; l346; l323] [o103; o17; o12; o11] [o18] ["memory"] (Some (true, true));
Blk AArch64 "core_arch_ops_gcc_aarch64.hpp" 334 "fetch_and" 8 8 false false [l348] [o12; o108] [o13] ["memory"] (Some (false, false));
Blk AArch64 "core_arch_ops_gcc_aarch64.hpp" 334 "fetch_and" 8 8 false false [l349] [o12; o108] [o13] ["memory"] (Some (true, false));
Blk AArch64 "core_arch_ops_gcc_aarch64.hpp" 334 "fetch_and" 8 8 false false [l350] [o12; o108] [o13] ["memory"] (Some (false, true));
Blk AArch64 "core_arch_ops_gcc_aarch64.hpp" 334 "fetch_and" 8 8 false false [l351] [o12; o108] [o13] ["memory"] (Some (true, true));
Blk AArch64 "core_arch_ops_gcc_aarch64.hpp" 346 "fetch_and" 8 8 false false [l1; l321; l352; l345; l323] [o103; o17; o12; o11] [o110] ["memory"] (Some (false, false));
Blk AArch64 "core_arch_ops_gcc_aarch64.hpp" 346 "fetch_and" 8 8 false false [l1; l324; l352; l345; l323] [o103; o17; o12; o11] [o110] ["memory"] (Some (true, false));
Blk AArch64 "core_arch_ops_gcc_aarch64.hpp" 346 "fetch_and" 8 8 false false [l1; l321; l352; l346; l323] [o103; o17; o12; o11] [o110] ["memory"] (Some (false, true));
Blk AArch64 "core_arch_ops_gcc_aarch64.hpp" 346 "fetch_and" 8 8 false false [l1; l324; l352; l346; l323] [o103; o17; o12; o11] [o110] ["memory"] (Some (true, true));
Blk AArch64 "core_arch_ops_gcc_aarch64.hpp" 372 "fetch_or" 8 8 false false [l353] [o12; o108] [o13] ["memory"] (Some (false, false));
Blk AArch64 "core_arch_ops_gcc_aarch64.hpp" 372 "fetch_or" 8 8 false false [l354] [o12; o108] [o13] ["memory"] (Some (true, false));
Blk AArch64 "core_arch_ops_gcc_aarch64.hpp" 372 "fetch_or" 8 8 false false [l355] [o12; o108] [o13] ["memory"] (Some (false, true));
Blk AArch64 "core_arch_ops_gcc_aarch64.hpp" 372 "fetch_or" 8 8 false false [l356] [o12; o108] [o13] ["memory"] (Some (true, true));
Blk AArch64 "core_arch_ops_gcc_aarch64.hpp" 384 "fetch_or" 8 8 false false [l1; l321; l357; l345; l323] [o103; o17; o12; o11] [o110] ["memory"] (Some (false, false));
Blk AArch64 "core_arch_ops_gcc_aarch64.hpp" 384 "fetch_or" 8 8 false false [l1; l324; l357; l345; l323] [o103; o17; o12; o11] [o110] ["memory"] (Some (true, false));
Blk AArch64 "core_arch_ops_gcc_aarch64.hpp" 384 "fetch_or" 8 8 false false [l1; l321; l357; l346; l323] [o103; o17; o12; o11] [o110] ["memory"] (Some (false, true));
Blk AArch64 "core_arch_ops_gcc_aarch64.hpp" 384 "fetch_or" 8 8 false false [l1; l324; l357; l346; l323] [o103; o17; o12; o11] [o110] ["memory"] (Some (true, true));
Blk AArch64 "core_arch_ops_gcc_aarch64.hpp" 410 "fetch_xor" 8 8 false false [l358] [o12; o108] [o13] ["memory"] (Some (false, false));
Blk AArch64 "core_arch_ops_gcc_aarch64.hpp" 410 "fetch_xor" 8 8 false false [l359] [o12; o108] [o13] ["memory"] (Some (true, false));
Blk AArch64 "core_arch_ops_gcc_aarch64.hpp" 410 "fetch_xor" 8 8 false false [l360] [o12; o108] [o13] ["memory"] (Some (false, true));
Blk AArch64 "core_arch_ops_gcc_aarch64.hpp" 410 "fetch_xor" 8 8 false false [l361] [o12; o108] [o13] ["memory"] (Some (true, true));
Blk AArch64 "core_arch_ops_gcc_aarch64.hpp" 422 "fetch_xor" 8 8 false false [l1; l321; l362; l345; l323] [o103; o17; o12; o11] [o110] ["memory"] (Some (false, false));
Blk AArch64 "core_arch_ops_gcc_aarch64.hpp" 422 "fetch_xor" 8 8 false false [l1; l324; l362; l345; l323] [o103; o17; o12; o11] [o110] ["memory"] (Some (true, false));
Blk AArch64 "core_arch_ops_gcc_aarch64.hpp" 422 "fetch_xor" 8 8 false false [l1; l321; l362; l346; l323] [o103; o17; o12; o11] [o110] ["memory"] (Some (false, true));
Blk AArch64 "core_arch_ops_gcc_aarch64.hpp" 422 "fetch_xor" 8 8 false false [l1; l324; l362; l346; l323] [o103; o17; o12; o11] [o110] ["memory"] (Some (true, true));
Blk AArch64 "core_arch_ops_gcc_aarch64.hpp" 470 "store" 16 16 false false [l363] [o100] [o13] ["memory"] None;
Blk AArch64 "core_arch_ops_gcc_aarch64.hpp" 492 "load" 16 16 false false [l364] [o101] [o102] ["memory"] None;
Blk AArch64 "core_arch_ops_gcc_aarch64.hpp" 503 "load" 16 16 false false [l365] [o101] [o102] ["memory"] None;
Blk AArch64 "core_arch_ops_gcc_aarch64.hpp" 526 "exchange" 16 16 false false [l366] [o12; o108] [o13] ["memory"] (Some (false, false));
Blk AArch64 "core_arch_ops_gcc_aarch64.hpp" 526 "exchange" 16 16 false false [l367] [o12; o108] [o13] ["memory"] (Some (true, false));
Blk AArch64 "core_arch_ops_gcc_aarch64.hpp" 526 "exchange" 16 16 false false [l368] [o12; o108] [o13] ["memory"] (Some (false, true));
Blk AArch64 "core_arch_ops_gcc_aarch64.hpp" 526 "exchange" 16 16 false false [l369] [o12; o108] [o13] ["memory"] (Some (true, true));
Blk AArch64 "core_arch_ops_gcc_aarch64.hpp" 537 "exchange" 16 16 false false [l1; l370; l371; l323] [o103; o12; o11] [o13] ["memory"] (Some (false, false));
Blk AArch64 "core_arch_ops_gcc_aarch64.hpp" 537 "exchange" 16 16 false false [l1; l372; l371; l323] [o103; o12; o11] [o13] ["memory"] (Some (true, false));
Blk AArch64 "core_arch_ops_gcc_aarch64.hpp" 537 "exchange" 16 16 false false [l1; l370; l373; l323] [o103; o12; o11] [o13] ["memory"] (Some (false, true));
Blk AArch64 "core_arch_ops_gcc_aarch64.hpp" 537 "exchange" 16 16 false false [l1; l372; l373; l323] [o103; o12; o11] [o13] ["memory"] (Some (true, true));
Blk AArch64 "core_arch_ops_gcc_aarch64.hpp" 565 "compare_exchange_weak" 16 16 false false [l374] [o12; o109] [o16] ["memory"] (Some (false, false));
Blk AArch64 "core_arch_ops_gcc_aarch64.hpp" 565 "compare_exchange_weak" 16 16 false false [l375] [o12; o109] [o16] ["memory"] (Some (true, false));
Blk AArch64 "core_arch_ops_gcc_aarch64.hpp" 565 "compare_exchange_weak" 16 16 false false [l376] [o12; o109] [o16] ["memory"] (Some (false, true));
Blk AArch64 "core_arch_ops_gcc_aarch64.hpp" 565 "compare_exchange_weak" 16 16 false false [l377] [o12; o109] [o16] ["memory"] (Some (true, true));
Blk AArch64 "core_arch_ops_gcc_aarch64.hpp" 579 "compare_exchange_weak" 16 16 false false [l378; l331; l370; l332; l333; l379; l335; l1] [o104; o12; o11] [o16; o105] ["cc"; "memory"] (Some (false, false));
Blk AArch64 "core_arch_ops_gcc_aarch64.hpp" 579 "compare_exchange_weak" 16 16 false false [l378; l331; l372; l332; l333; l379; l335; l1] [o104; o12; o11] [o16; o105] ["cc"; "memory"] (Some (true, false));
Blk AArch64 "core_arch_ops_gcc_aarch64.hpp" 579 "compare_exchange_weak" 16 16 false false [l378; l331; l370; l332; l333; l380; l335; l1] [o104; o12; o11] [o16; o105] ["cc"; "memory"] (Some (false, true));
Blk AArch64 "core_arch_ops_gcc_aarch64.hpp" 579 "compare_exchange_weak" 16 16 false false [l378; l331; l372; l332; l333; l380; l335; l1] [o104; o12; o11] [o16; o105] ["cc"; "memory"] (Some (true, true));
Blk AArch64 "core_arch_ops_gcc_aarch64.hpp" 613 "compare_exchange_strong" 16 16 false false [l374] [o12; o109] [o16] ["memory"] (Some (false, false));
Blk AArch64 "core_arch_ops_gcc_aarch64.hpp" 613 "compare_exchange_strong" 16 16 false false [l375] [o12; o109] [o16] ["memory"] (Some (true, false));
Blk AArch64 "core_arch_ops_gcc_aarch64.hpp" 613 "compare_exchange_strong" 16 16 false false [l376] [o12; o109] [o16] ["memory"] (Some (false, true));
Blk AArch64 "core_arch_ops_gcc_aarch64.hpp" 613 "compare_exchange_strong" 16 16 false false [l377] [o12; o109] [o16] ["memory"] (Some (true, true));
Blk AArch64 "core_arch_ops_gcc_aarch64.hpp" 627 "compare_exchange_strong" 16 16 false false [l378; l1; l370; l332; l337; l379; l338; l15; l339] [o104; o12; o11] [o16; o105] ["cc"; "memory"] (Some (false, false));
Blk AArch64 "core_arch_ops_gcc_aarch64.hpp" 627 "compare_exchange_strong" 16 16 false false [l378; l1; l372; l332; l337; l379; l338; l15; l339] [o104; o12; o11] [o16; o105] ["cc"; "memory"] (Some (true, false));
Blk AArch64 "core_arch_ops_gcc_aarch64.hpp" 627 "compare_exchange_strong" 16 16 false false [l378; l1; l370; l332; l337; l380; l338; l15; l339] [o104; o12; o11] [o16; o105] ["cc"; "memory"] (Some (false, true));
Blk AArch64 "core_arch_ops_gcc_aarch64.hpp" 627 "compare_exchange_strong" 16 16 false false [l378; l1; l372; l332; l337; l380; l338; l15; l339] [o104; o12; o11] [o16; o105] ["cc"; "memory"] (Some (true, true));
Blk AArch64 "core_arch_ops_gcc_aarch64.hpp" 659 "fetch_add" 16 16 false false [l381] [o12; o108] [o13] ["memory"] (Some (false, false));
Blk AArch64 "core_arch_ops_gcc_aarch64.hpp" 659 "fetch_add" 16 16 false false [l382] [o12; o108] [o13] ["memory"] (Some (true, false));
Blk AArch64 "core_arch_ops_gcc_aarch64.hpp" 659 "fetch_add" 16 16 false false [l383] [o12; o108] [o13] ["memory"] (Some (false, true));
Blk AArch64 "core_arch_ops_gcc_aarch64.hpp" 659 "fetch_add" 16 16 false false [l384] [o12; o108] [o13] ["memory"] (Some (true, true));
Blk AArch64 "core_arch_ops_gcc_aarch64.hpp" 671 "fetch_add" 16 16 false false [l1; l370; l344; l385; l323] [o103; o17; o12; o11] [o18] ["memory"] (Some (false, false));
Blk AArch64 "core_arch_ops_gcc_aarch64.hpp" 671 "fetch_add" 16 16 false false [l1; l372; l344; l385; l323] [o103; o17; o12; o11] [o18] ["memory"] (Some (true, false));
Blk AArch64 "core_arch_ops_gcc_aarch64.hpp" 671 "fetch_add" 16 16 false false [l1; l370; l344; l386; l323] [o103; o17; o12; o11] [o18] ["memory"] (Some (false, true));
Blk AArch64 "core_arch_ops_gcc_aarch64.hpp" 671 "fetch_add" 16 16 false false [l1; l372; l344; l386; l323] [o103; o17; o12; o11] [o18] ["memory"] (Some (true, true));
Blk AArch64 "core_arch_ops_gcc_aarch64.hpp" 699 "fetch_sub" 16 16 false false [l381] [o12; o108] [o13] ["memory"] (Some (false, false));
Blk AArch64 "core_arch_ops_gcc_aarch64.hpp" 699 "fetch_sub" 16 16 false false [l382] [o12; o108] [o13] ["memory"] (Some (true, false));
Blk AArch64 "core_arch_ops_gcc_aarch64.hpp" 699 "fetch_sub" 16 16 false false [l383] [o12; o108] [o13] ["memory"] (Some (false, true));
Blk AArch64 "core_arch_ops_gcc_aarch64.hpp" 699 "fetch_sub" 16 16 false false [l384] [o12; o108] [o13] ["memory"] (Some (true, true));
Blk AArch64 "core_arch_ops_gcc_aarch64.hpp" 712 "fetch_sub" 16 16 false false [l1; l370; l347; l385; l323] [o103; o17; o12; o11] [o18] ["memory"] (Some (false, false));
Blk AArch64 "core_arch_ops_gcc_aarch64.hpp" 712 "fetch_sub" 16 16 false false [l1; l372; l347; l385; l323] [o103; o17; o12; o11] [o18] ["memory"] (Some (true, false));
Blk AArch64 "core_arch_ops_gcc_aarch64.hpp" 712 "fetch_sub" 16 16 false false [l1; l370; l347; l386; l323] [o103; o17; o12; o11] [o18] ["memory"] (Some (false, true));
Blk AArch64 "core_arch_ops_gcc_aarch64.hpp" 712 "fetch_sub" 16 16 false false [l1; l372; l347; l386; l323] [o103; o17; o12; o11] [o18] ["memory"] (Some (true, true));
Blk AArch64 "core_arch_ops_gcc_aarch64.hpp" 740 "fetch_and" 16 16 false false [l387] [o12; o108] [o13] ["memory"] (Some (false, false));
Blk AArch64 "core_arch_ops_gcc_aarch64.hpp" 740 "fetch_and" 16 16 false false [l388] [o12; o108] [o13] ["memory"] (Some (true, false));
Blk AArch64 "core_arch_ops_gcc_aarch64.hpp" 740 "fetch_and" 16 16 false false [l389] [o12; o108] [o13] ["memory"] (Some (false, true));
Blk AArch64 "core_arch_ops_gcc_aarch64.hpp" 740 "fetch_and" 16 16 false false [l390] [o12; o108] [o13] ["memory"] (Some (true, true));
Blk AArch64 "core_arch_ops_gcc_aarch64.hpp" 752 "fetch_and" 16 16 false false [l1; l370; l352; l385; l323] [o103; o17; o12; o11] [o110] ["memory"] (Some (false, false));
Blk AArch64 "core_arch_ops_gcc_aarch64.hpp" 752 "fetch_and" 16 16 false false [l1; l372; l352; l385; l323] [o103; o17; o12; o11] [o110] ["memory"] (Some (true, false));
Blk AArch64 "core_arch_ops_gcc_aarch64.hpp" 752 "fetch_and" 16 16 false false [l1; l370; l352; l386; l323] [o103; o17; o12; o11] [o110] ["memory"] (Some (false, true));
Blk AArch64 "core_arch_ops_gcc_aarch64.hpp" 752 "fetch_and" 16 16 false false [l1; l372; l352; l386; l323] [o103; o17; o12; o11] [o110] ["memory"] (Some (true, true));
Blk AArch64 "core_arch_ops_gcc_aarch64.hpp" 778 "fetch_or" 16 16 false false [l391] [o12; o108] [o13] ["memory"] (Some (false, false));
Blk AArch64 "core_arch_ops_gcc_aarch64.hpp" 778 "fetch_or" 16 16 false false [l392] [o12; o108] [o13] ["memory"] (Some (true, false));
Blk AArch64 "core_arch_ops_gcc_aarch64.hpp" 778 "fetch_or" 16 16 false false [l393] [o12; o108] [o13] ["memory"] (Some (false, true));
Blk AArch64 "core_arch_ops_gcc_aarch64.hpp" 778 "fetch_or" 16 16 false false [l394] [o12; o108] [o13] ["memory"] (Some (true, true));
Blk AArch64 "core_arch_ops_gcc_aarch64.hpp" 790 "fetch_or" 16 16 false false [l1; l370; l357; l385; l323] [o103; o17; o12; o11] [o110] ["memory"] (Some (false, false));
Blk AArch64 "core_arch_ops_gcc_aarch64.hpp" 790 "fetch_or" 16 16 false false [l1; l372; l357; l385; l323] [o103; o17; o12; o11] [o110] ["memory"] (Some (true, false));
Blk AArch64 "core_arch_ops_gcc_aarch64.hpp" 790 "fetch_or" 16 16 false false [l1; l370; l357; l386; l323] [o103; o17; o12; o11] [o110] ["memory"] (Some (false, true));
Blk AArch64 "core_arch_ops_gcc_aarch64.hpp" 790 "fetch_or" 16 16 false false [l1; l372; l357; l386; l323] [o103; o17; o12; o11] [o110] ["memory"] (Some (true, true));
Blk AArch64 "core_arch_ops_gcc_aarch64.hpp" 816 "fetch_xor" 16 16 false false [l395] [o12; o108] [o13] ["memory"] (Some (false, false));
Blk AArch64 "core_arch_ops_gcc_aarch64.hpp" 816 "fetch_xor" 16 16 false false [l396] [o12; o108] [o13] ["memory"] (Some (true, false));
Blk AArch64 "core_arch_ops_gcc_aarch64.hpp" 816 "fetch_xor" 16 16 false false [l397] [o12; o108] [o13] ["memory"] (Some (false, true));
Blk AArch64 "core_arch_ops_gcc_aarch64.hpp" 816 "fetch_xor" 16 16 false false [l398] [o12; o108] [o13] ["memory"] (Some (true, true));
Blk AArch64 "core_arch_ops_gcc_aarch64.hpp" 828 "fetch_xor" 16 16 false false [l1; l370; l362; l385; l323] [o103; o17; o12; o11] [o110] ["memory"] (Some (false, false));
Blk AArch64 "core_arch_ops_gcc_aarch64.hpp" 828 "fetch_xor" 16 16 false false [l1; l372; l362; l385; l323] [o103; o17; o12; o11] [o110] ["memory"] (Some (true, false));
Blk AArch64 "core_arch_ops_gcc_aarch64.hpp" 828 "fetch_xor" 16 16 false false [l1; l370; l362; l386; l323] [o103; o17; o12; o11] [o110] ["memory"] (Some (false, true));
Blk AArch64 "core_arch_ops_gcc_aarch64.hpp" 828 "fetch_xor" 16 16 false false [l1; l372; l362; l386; l323] [o103; o17; o12; o11] [o110] ["memory"] (Some (true, true));
Blk AArch64 "core_arch_ops_gcc_aarch64.hpp" 876 "store" 32 32 false false [l399] [o100] [o13] ["memory"] None;
Blk AArch64 "core_arch_ops_gcc_aarch64.hpp" 898 "load" 32 32 false false [l400] [o101] [o102] ["memory"] None;
Blk AArch64 "core_arch_ops_gcc_aarch64.hpp" 909 "load" 32 32 false false [l401] [o101] [o102] ["memory"] None;
Blk AArch64 "core_arch_ops_gcc_aarch64.hpp" 932 "exchange" 32 32 false false [l402] [o12; o108] [o13] ["memory"] (Some (false, false));
Blk AArch64 "core_arch_ops_gcc_aarch64.hpp" 932 "exchange" 32 32 false false [l403] [o12; o108] [o13] ["memory"] (Some (true, false));
Blk AArch64 "core_arch_ops_gcc_aarch64.hpp" 932 "exchange" 32 32 false false [l404] [o12; o108] [o13] ["memory"] (Some (false, true));
Blk AArch64 "core_arch_ops_gcc_aarch64.hpp" 932 "exchange" 32 32 false false [l405] [o12; o108] [o13] ["memory"] (Some (true, true));
Blk AArch64 "core_arch_ops_gcc_aarch64.hpp" 943 "exchange" 32 32 false false [l1; l406; l407; l323] [o103; o12; o11] [o13] ["memory"] (Some (false, false));
Blk AArch64 "core_arch_ops_gcc_aarch64.hpp" 943 "exchange" 32 32 false false [l1; l408; l407; l323] [o103; o12; o11] [o13] ["memory"] (Some (true, false));
Blk AArch64 "core_arch_ops_gcc_aarch64.hpp" 943 "exchange" 32 32 false false [l1; l406; l409; l323] [o103; o12; o11] [o13] ["memory"] (Some (false, true));
Blk AArch64 "core_arch_ops_gcc_aarch64.hpp" 943 "exchange" 32 32 false false [l1; l408; l409; l323] [o103; o12; o11] [o13] ["memory"] (Some (true, true));
Blk AArch64 "core_arch_ops_gcc_aarch64.hpp" 971 "compare_exchange_weak" 32 32 false false [l410] [o12; o109] [o16] ["memory"] (Some (false, false));
Blk AArch64 "core_arch_ops_gcc_aarch64.hpp" 971 "compare_exchange_weak" 32 32 false false [l411] [o12; o109] [o16] ["memory"] (Some (true, false));
Blk AArch64 "core_arch_ops_gcc_aarch64.hpp" 971 "compare_exchange_weak" 32 32 false false [l412] [o12; o109] [o16] ["memory"] (Some (false, true));
Blk AArch64 "core_arch_ops_gcc_aarch64.hpp" 971 "compare_exchange_weak" 32 32 false false [l413] [o12; o109] [o16] ["memory"] (Some (true, true));
Blk AArch64 "core_arch_ops_gcc_aarch64.hpp" 985 "compare_exchange_weak" 32 32 false false [l331; l406; l332; l333; l414; l335; l1] [o104; o12; o11] [o16; o15] ["cc"; "memory"] (Some (false, false));
Blk AArch64 "core_arch_ops_gcc_aarch64.hpp" 985 "compare_exchange_weak" 32 32 false false [l331; l408; l332; l333; l414; l335; l1] [o104; o12; o11] [o16; o15] ["cc"; "memory"] (Some (true, false));
Blk AArch64 "core_arch_ops_gcc_aarch64.hpp" 985 "compare_exchange_weak" 32 32 false false [l331; l406; l332; l333; l415; l335; l1] [o104; o12; o11] [o16; o15] ["cc"; "memory"] (Some (false, true));
Blk AArch64 "core_arch_ops_gcc_aarch64.hpp" 985 "compare_exchange_weak" 32 32 false false [l331; l408; l332; l333; l415; l335; l1] [o104; o12; o11] [o16; o15] ["cc"; "memory"] (Some (true, true));
Blk AArch64 "core_arch_ops_gcc_aarch64.hpp" 1018 "compare_exchange_strong" 32 32 false false [l410] [o12; o109] [o16] ["memory"] (Some (false, false));
Blk AArch64 "core_arch_ops_gcc_aarch64.hpp" 1018 "compare_exchange_strong" 32 32 false false [l411] [o12; o109] [o16] ["memory"] (Some (true, false));
Blk AArch64 "core_arch_ops_gcc_aarch64.hpp" 1018 "compare_exchange_strong" 32 32 false false [l412] [o12; o109] [o16] ["memory"] (Some (false, true));
Blk AArch64 "core_arch_ops_gcc_aarch64.hpp" 1018 "compare_exchange_strong" 32 32 false false [l413] [o12; o109] [o16] ["memory"] (Some (true, true));
Blk AArch64 "core_arch_ops_gcc_aarch64.hpp" 1032 "compare_exchange_strong" 32 32 false false [l1; l406; l332; l337; l414; l338; l15; l339] [o104; o12; o11] [o16; o15] ["cc"; "memory"] (Some (false, false));
Blk AArch64 "core_arch_ops_gcc_aarch64.hpp" 1032 "compare_exchange_strong" 32 32 false false [l1; l408; l332; l337; l414; l338; l15; l339] [o104; o12; o11] [o16; o15] ["cc"; "memory"] (Some (true, false));
Blk AArch64 "core_arch_ops_gcc_aarch64.hpp" 1032 "compare_exchange_strong" 32 32 false false [l1; l406; l332; l337; l415; l338; l15; l339] [o104; o12; o11] [o16; o15] ["cc"; "memory"] (Some (false, true));
Blk AArch64 "core_arch_ops_gcc_aarch64.hpp" 1032 "compare_exchange_strong" 32 32 false false [l1; l408; l332; l337; l415; l338; l15; l339] [o104; o12; o11] [o16; o15] ["cc"; "memory"] (Some (true, true));
Blk AArch64 "core_arch_ops_gcc_aarch64.hpp" 1063 "fetch_add" 32 32 false false [l416] [o12; o108] [o13] ["memory"] (Some (false, false));
Blk AArch64 "core_arch_ops_gcc_aarch64.hpp" 1063 "fetch_add" 32 32 false false [l417] [o12; o108] [o13] ["memory"] (Some (true, false));
Blk AArch64 "core_arch_ops_gcc_aarch64.hpp" 1063 "fetch_add" 32 32 false false [l418] [o12; o108] [o13] ["memory"] (Some (false, true));
Blk AArch64 "core_arch_ops_gcc_aarch64.hpp" 1063 "fetch_add" 32 32 false false [l419] [o12; o108] [o13] ["memory"] (Some (true, true));
Blk AArch64 "core_arch_ops_gcc_aarch64.hpp" 1075 "fetch_add" 32 32 false false [l1; l406; l344; l420; l323] [o103; o17; o12; o11] [o18] ["memory"] (Some (false, false));
Blk AArch64 "core_arch_ops_gcc_aarch64.hpp" 1075 "fetch_add" 32 32 false false [l1; l408; l344; l420; l323] [o103; o17; o12; o11] [o18] ["memory"] (Some (true, false));
Blk AArch64 "core_arch_ops_gcc_aarch64.hpp" 1075 "fetch_add" 32 32 false false [l1; l406; l344; l421; l323] [o103; o17; o12; o11] [o18] ["memory"] (Some (false, true));
Blk AArch64 "core_arch_ops_gcc_aarch64.hpp" 1075 "fetch_add" 32 32 false false [l1; l408; l344; l421; l323] [o103; o17; o12; o11] [o18] ["memory"] (Some (true, true));
Blk AArch64 "core_arch_ops_gcc_aarch64.hpp" 1103 "fetch_sub" 32 32 false false [l416] [o12; o108] [o13] ["memory"] (Some (false, false));
Blk AArch64 "core_arch_ops_gcc_aarch64.hpp" 1103 "fetch_sub" 32 32 false false [l417] [o12; o108] [o13] ["memory"] (Some (true, false));
Blk AArch64 "core_arch_ops_gcc_aarch64.hpp" 1103 "fetch_sub" 32 32 false false [l418] [o12; o108] [o13] ["memory"] (Some (false, true));
Blk AArch64 "core_arch_ops_gcc_aarch64.hpp" 1103 "fetch_sub" 32 32 false false [l419] [o12; o108] [o13] ["memory"] (Some (true, true));
Blk AArch64 "core_arch_ops_gcc_aarch64.hpp" 1116 "fetch_sub" 32 32 false false [l1; l406; l347; l420; l323] [o103; o17; o12; o11] [o18] ["memory"] (Some (false, false));
Blk AArch64 "core_arch_ops_gcc_aarch64.hpp" 1116 "fetch_sub" 32 32 false false [l1; l408; l347; l420; l323] [o103; o17; o12; o11] [o18] ["memory"] (Some (true, false));
Blk AArch64 "core_arch_ops_gcc_aarch64.hpp" 1116 "fetch_sub" 32 32 false false [l1; l406; l347; l421; l323] [o103; o17; o12; o11] [o18] ["memory"] (Some (false, true));
Blk AArch64 "core_arch_ops_gcc_aarch64.hpp" 1116 "fetch_sub" 32 32 false false [l1; l408; l347; l421; l323] [o103; o17; o12; o11] [o18] ["memory"] (Some (true, true));
Blk AArch64 "core_arch_ops_gcc_aarch64.hpp" 1144 "fetch_and" 32 32 false false [l422] [o12; o108] [o13] ["memory"] (Some (false, false));
Blk AArch64 "core_arch_ops_gcc_aarch64.hpp" 1144 "fetch_and" 32 32 false false [l423] [o12; o108] [o13] ["memory"] (Some (true, false));
Blk AArch64 "core_arch_ops_gcc_aarch64.hpp" 1144 "fetch_and" 32 32 false false [l424] [o12; o108] [o13] ["memory"] (Some (false, true));
Blk AArch64 "core_arch_ops_gcc_aarch64.hpp" 1144 "fetch_and" 32 32 false false [l425] [o12; o108] [o13] ["memory"] (Some (true, true));
Blk AArch64 "core_arch_ops_gcc_aarch64.hpp" 1156 "fetch_and" 32 32 false false [l1; l406; l352; l420; l323] [o103; o17; o12; o11] [o110] ["memory"] (Some (false, false));
Blk AArch64 "core_arch_ops_gcc_aarch64.hpp" 1156 "fetch_and" 32 32 false false [l1; l408; l352; l420; l323] [o103; o17; o12; o11] [o110] ["memory"] (Some (true, false));
Blk AArch64 "core_arch_ops_gcc_aarch64.hpp" 1156 "fetch_and" 32 32 false false [l1; l406; l352; l421; l323] [o103; o17; o12; o11] [o110] ["memory"] (Some (false, true));
Blk AArch64 "core_arch_ops_gcc_aarch64.hpp" 1156 "fetch_and" 32 32 false false [l1; l408; l352; l421; l323] [o103; o17; o12; o11] [o110] ["memory"] (Some (true, true));
Blk AArch64 "core_arch_ops_gcc_aarch64.hpp" 1182 "fetch_or" 32 32 false false [l426] [o12; o108] [o13] ["memory"] (Some (false, false));
Blk AArch64 "core_arch_ops_gcc_aarch64.hpp" 1182 "fetch_or" 32 32 false false [l427] [o12; o108] [o13] ["memory"] (Some (true, false));
Blk AArch64 "core_arch_ops_gcc_aarch64.hpp" 1182 "fetch_or" 32 32 false false [l428] [o12; o108] [o13] ["memory"] (Some (false, true));
Blk AArch64 "core_arch_ops_gcc_aarch64.hpp" 1182 "fetch_or" 32 32 false false [l429] [o12; o108] [o13] ["memory"] (Some (true, true));
Blk AArch64 "core_arch_ops_gcc_aarch64.hpp" 1194 "fetch_or" 32 32 false false [l1; l406; l357; l420; l323] [o103; o17; o12; o11] [o110] ["memory"] (Some (false, false));
Blk AArch64 "core_arch_ops_gcc_aarch64.hpp" 1194 "fetch_or" 32 32 false false [l1; l408; l357; l420; l323] [o103; o17; o12; o11] [o110] ["memory"] (Some (true, false));
Blk AArch64 "core_arch_ops_gcc_aarch64.hpp" 1194 "fetch_or" 32 32 false false [l1; l406; l357; l421; l323] [o103; o17; o12; o11] [o110] ["memory"] (Some (false, true));
Blk AArch64 "core_arch_ops_gcc_aarch64.hpp" 1194 "fetch_or" 32 32 false false [l1; l408; l357; l421; l323] [o103; o17; o12; o11] [o110] ["memory"] (Some (true, true));
Blk AArch64 "core_arch_ops_gcc_aarch64.hpp" 1220 "fetch_xor" 32 32 false false [l430] [o12; o108] [o13] ["memory"] (Some (false, false));
Blk AArch64 "core_arch_ops_gcc_aarch64.hpp" 1220 "fetch_xor" 32 32 false false [l431] [o12; o108] [o13] ["memory"] (Some (true, false));
Blk AArch64 "core_arch_ops_gcc_aarch64.hpp" 1220 "fetch_xor" 32 32 false false [l432] [o12; o108] [o13] ["memory"] (Some (false, true));
Blk AArch64 "core_arch_ops_gcc_aarch64.hpp" 1220 "fetch_xor" 32 32 false false [l433] [o12; o108] [o13] ["memory"] (Some (true, true));
Blk AArch64 "core_arch_ops_gcc_aarch64.hpp" 1232 "fetch_xor" 32 32 false false [l1; l406; l362; l420; l323] [o103; o17; o12; o11] [o110] ["memory"] (Some (false, false));
Blk AArch64 "core_arch_ops_gcc_aarch64.hpp" 1232 "fetch_xor" 32 32 false false [l1; l408; l362; l420; l323] [o103; o17; o12; o11] [o110] ["memory"] (Some (true, false));
Blk AArch64 "core_arch_ops_gcc_aarch64.hpp" 1232 "fetch_xor" 32 32 false false [l1; l406; l362; l421; l323] [o103; o17; o12; o11] [o110] ["memory"] (Some (false, true));
Blk AArch64 "core_arch_ops_gcc_aarch64.hpp" 1232 "fetch_xor" 32 32 false false [l1; l408; l362; l421; l323] [o103; o17; o12; o11] [o110] ["memory"] (Some (true, true));
Blk AArch64 "core_arch_ops_gcc_aarch64.hpp" 1280 "store" 64 64 false false [l434] [o100] [o13] ["memory"] None;
Blk AArch64 "core_arch_ops_gcc_aarch64.hpp" 1302 "load" 64 64 false false [l435] [o101] [o102] ["memory"] None;
Blk AArch64 "core_arch_ops_gcc_aarch64.hpp" 1313 "load" 64 64 false false [l436] [o101] [o102] ["memory"] None;
Blk AArch64 "core_arch_ops_gcc_aarch64.hpp" 1336 "exchange" 64 64 false false [l437] [o12; o108] [o13] ["memory"] (Some (false, false));
Blk AArch64 "core_arch_ops_gcc_aarch64.hpp" 1336 "exchange" 64 64 false false [l438] [o12; o108] [o13] ["memory"] (Some (true, false));
Blk AArch64 "core_arch_ops_gcc_aarch64.hpp" 1336 "exchange" 64 64 false false [l439] [o12; o108] [o13] ["memory"] (Some (false, true));
Blk AArch64 "core_arch_ops_gcc_aarch64.hpp" 1336 "exchange" 64 64 false false [l440] [o12; o108] [o13] ["memory"] (Some (true, true));
Blk AArch64 "core_arch_ops_gcc_aarch64.hpp" 1347 "exchange" 64 64 false false [l1; l441; l442; l323] [o103; o12; o11] [o13] ["memory"] (Some (false, false));
Blk AArch64 "core_arch_ops_gcc_aarch64.hpp" 1347 "exchange" 64 64 false false [l1; l443; l442; l323] [o103; o12; o11] [o13] ["memory"] (Some (true, false));
Blk AArch64 "core_arch_ops_gcc_aarch64.hpp" 1347 "exchange" 64 64 false false [l1; l441; l444; l323] [o103; o12; o11] [o13] ["memory"] (Some (false, true));
Blk AArch64 "core_arch_ops_gcc_aarch64.hpp" 1347 "exchange" 64 64 false false [l1; l443; l444; l323] [o103; o12; o11] [o13] ["memory"] (Some (true, true));
Blk AArch64 "core_arch_ops_gcc_aarch64.hpp" 1375 "compare_exchange_weak" 64 64 false false [l445] [o12; o109] [o16] ["memory"] (Some (false, false));
Blk AArch64 "core_arch_ops_gcc_aarch64.hpp" 1375 "compare_exchange_weak" 64 64 false false [l446] [o12; o109] [o16] ["memory"] (Some (true, false));
Blk AArch64 "core_arch_ops_gcc_aarch64.hpp" 1375 "compare_exchange_weak" 64 64 false false [l447] [o12; o109] [o16] ["memory"] (Some (false, true));
Blk AArch64 "core_arch_ops_gcc_aarch64.hpp" 1375 "compare_exchange_weak" 64 64 false false [l448] [o12; o109] [o16] ["memory"] (Some (true, true));
Blk AArch64 "core_arch_ops_gcc_aarch64.hpp" 1389 "compare_exchange_weak" 64 64 false false [l331; l441; l449; l333; l450; l335; l1] [o104; o12; o11] [o16; o15] ["cc"; "memory"] (Some (false, false));
Blk AArch64 "core_arch_ops_gcc_aarch64.hpp" 1389 "compare_exchange_weak" 64 64 false false [l331; l443; l449; l333; l450; l335; l1] [o104; o12; o11] [o16; o15] ["cc"; "memory"] (Some (true, false));
Blk AArch64 "core_arch_ops_gcc_aarch64.hpp" 1389 "compare_exchange_weak" 64 64 false false [l331; l441; l449; l333; l451; l335; l1] [o104; o12; o11] [o16; o15] ["cc"; "memory"] (Some (false, true));
Blk AArch64 "core_arch_ops_gcc_aarch64.hpp" 1389 "compare_exchange_weak" 64 64 false false [l331; l443; l449; l333; l451; l335; l1] [o104; o12; o11] [o16; o15] ["cc"; "memory"] (Some (true, true));
Blk AArch64 "core_arch_ops_gcc_aarch64.hpp" 1422 "compare_exchange_strong" 64 64 false false [l445] [o12; o109] [o16] ["memory"] (Some (false, false));
Blk AArch64 "core_arch_ops_gcc_aarch64.hpp" 1422 "compare_exchange_strong" 64 64 false false [l446] [o12; o109] [o16] ["memory"] (Some (true, false));
Blk AArch64 "core_arch_ops_gcc_aarch64.hpp" 1422 "compare_exchange_strong" 64 64 false false [l447] [o12; o109] [o16] ["memory"] (Some (false, true));
Blk AArch64 "core_arch_ops_gcc_aarch64.hpp" 1422 "compare_exchange_strong" 64 64 false false [l448] [o12; o109] [o16] ["memory"] (Some (true, true));
Blk AArch64 "core_arch_ops_gcc_aarch64.hpp" 1436 "compare_exchange_strong" 64 64 false false [l1; l441; l449; l337; l450; l338; l15; l339] [o104; o12; o11] [o16; o15] ["cc"; "memory"] (Some (false, false));
Blk AArch64 "core_arch_ops_gcc_aarch64.hpp" 1436 "compare_exchange_strong" 64 64 false false [l1; l443; l449; l337; l450; l338; l15; l339] [o104; o12; o11] [o16; o15] ["cc"; "memory"] (Some (true, false));
Blk AArch64 "core_arch_ops_gcc_aarch64.hpp" 1436 "compare_exchange_strong" 64 64 false false [l1; l441; l449; l337; l451; l338; l15; l339] [o104; o12; o11] [o16; o15] ["cc"; "memory"] (Some (false, true));
Blk AArch64 "core_arch_ops_gcc_aarch64.hpp" 1436 "compare_exchange_strong" 64 64 false false [l1; l443; l449; l337; l451; l338; l15; l339] [o104; o12; o11] [o16; o15] ["cc"; "memory"] (Some (true, true));
Blk AArch64 "core_arch_ops_gcc_aarch64.hpp" 1467 "fetch_add" 64 64 false false [l452] [o12; o108] [o13] ["memory"] (Some (false, false));
Blk AArch64 "core_arch_ops_gcc_aarch64.hpp" 1467 "fetch_add" 64 64 false false [l453] [o12; o108] [o13] ["memory"] (Some (true, false));
Blk AArch64 "core_arch_ops_gcc_aarch64.hpp" 1467 "fetch_add" 64 64 false false [l454] [o12; o108] [o13] ["memory"] (Some (false, true));
Blk AArch64 "core_arch_ops_gcc_aarch64.hpp" 1467 "fetch_add" 64 64 false false [l455] [o12; o108] [o13] ["memory"] (Some (true, true));
Blk AArch64 "core_arch_ops_gcc_aarch64.hpp" 1479 "fetch_add" 64 64 false false [l1; l441; l456; l457; l323] [o103; o17; o12; o11] [o18] ["memory"] (Some (false, false));
Blk AArch64 "core_arch_ops_gcc_aarch64.hpp" 1479 "fetch_add" 64 64 false false [l1; l443; l456; l457; l323] [o103; o17; o12; o11] [o18] ["memory"] (Some (true, false));
Blk AArch64 "core_arch_ops_gcc_aarch64.hpp" 1479 "fetch_add" 64 64 false false [l1; l441; l456; l458; l323] [o103; o17; o12; o11] [o18] ["memory"] (Some (false, true));
Blk AArch64 "core_arch_ops_gcc_aarch64.hpp" 1479 "fetch_add" 64 64 false false [l1; l443; l456; l458; l323] [o103; o17; o12; o11] [o18] ["memory"] (Some (true, true));
Blk AArch64 "core_arch_ops_gcc_aarch64.hpp" 1507 "fetch_sub" 64 64 false false [l452] [o12; o108] [o13] ["memory"] (Some (false, false));
Blk AArch64 "core_arch_ops_gcc_aarch64.hpp" 1507 "fetch_sub" 64 64 false false [l453] [o12; o108] [o13] ["memory"] (Some (true, false));
Blk AArch64 "core_arch_ops_gcc_aarch64.hpp" 1507 "fetch_sub" 64 64 false false [l454] [o12; o108] [o13] ["memory"] (Some (false, true));
Blk AArch64 "core_arch_ops_gcc_aarch64.hpp" 1507 "fetch_sub" 64 64 false false [l455] [o12; o108] [o13] ["memory"] (Some (true, true));
Blk AArch64 "core_arch_ops_gcc_aarch64.hpp" 1520 "fetch_sub" 64 64 false false [l1; l441; l459; l457; l323] [o103; o17; o12; o11] [o18] ["memory"] (Some (false, false));
Blk AArch64 "core_arch_ops_gcc_aarch64.hpp" 1520 "fetch_sub" 64 64 false false [l1; l443; l459; l457; l323] [o103; o17; o12; o11] [o18] ["memory"] (Some (true, false));
Blk AArch64 "core_arch_ops_gcc_aarch64.hpp" 1520 "fetch_sub" 64 64 false false [l1; l441; l459; l458; l323] [o103; o17; o12; o11] [o18] ["memory"] (Some (false, true));
Blk AArch64 "core_arch_ops_gcc_aarch64.hpp" 1520 "fetch_sub" 64 64 false false [l1; l443; l459; l458; l323] [o103; o17; o12; o11] [o18] ["memory"] (Some (true, true));
Blk AArch64 "core_arch_ops_gcc_aarch64.hpp" 1548 "fetch_and" 64 64 false false [l460] [o12; o108] [o13] ["memory"] (Some (false, false));
Blk AArch64 "core_arch_ops_gcc_aarch64.hpp" 1548 "fetch_and" 64 64 false false [l461] [o12; o108] [o13] ["memory"] (Some (true, false));
Blk AArch64 "core_arch_ops_gcc_aarch64.hpp" 1548 "fetch_and" 64 64 false false [l462] [o12; o108] [o13] ["memory"] (Some (false, true));
Blk AArch64 "core_arch_ops_gcc_aarch64.hpp" 1548 "fetch_and" 64 64 false false [l463] [o12; o108] [o13] ["memory"] (Some (true, true));
Blk AArch64 "core_arch_ops_gcc_aarch64.hpp" 1560 "fetch_and" 64 64 false false [l1; l441; l464; l457; l323] [o103; o17; o12; o11] [o111] ["memory"] (Some (false, false));
Blk AArch64 "core_arch_ops_gcc_aarch64.hpp" 1560 "fetch_and" 64 64 false false [l1; l443; l464; l457; l323] [o103; o17; o12; o11] [o111] ["memory"] (Some (true, false));
Blk AArch64 "core_arch_ops_gcc_aarch64.hpp" 1560 "fetch_and" 64 64 false false [l1; l441; l464; l458; l323] [o103; o17; o12; o11] [o111] ["memory"] (Some (false, true));
Blk AArch64 "core_arch_ops_gcc_aarch64.hpp" 1560 "fetch_and" 64 64 false false [l1; l443; l464; l458; l323] [o103; o17; o12; o11] [o111] ["memory"] (Some (true, true));
Blk AArch64 "core_arch_ops_gcc_aarch64.hpp" 1586 "fetch_or" 64 64 false false [l465] [o12; o108] [o13] ["memory"] (Some (false, false));
Blk AArch64 "core_arch_ops_gcc_aarch64.hpp" 1586 "fetch_or" 64 64 false false [l466] [o12; o108] [o13] ["memory"] (Some (true, false));
Blk AArch64 "core_arch_ops_gcc_aarch64.hpp" 1586 "fetch_or" 64 64 false false [l467] [o12; o108] [o13] ["memory"] (Some (false, true));
Blk AArch64 "core_arch_ops_gcc_aarch64.hpp" 1586 "fetch_or" 64 64 false false [l468] [o12; o108] [o13] ["memory"] (Some (true, true));
Blk AArch64 "core_arch_ops_gcc_aarch64.hpp" 1598 "fetch_or" 64 64 false false [l1; l441; l469; l457; l323] [o103; o17; o12; o11] [o111] ["memory"] (Some (false, false));
Blk AArch64 "core_arch_ops_gcc_aarch64.hpp" 1598 "fetch_or" 64 64 false false [l1; l443; l469; l457; l323] [o103; o17; o12; o11] [o111] ["memory"] (Some (true, false));
Blk AArch64 "core_arch_ops_gcc_aarch64.hpp" 1598 "fetch_or" 64 64 false false [l1; l441; l469; l458; l323] [o103; o17; o12; o11] [o111] ["memory"] (Some (false, true));
Blk AArch64 "core_arch_ops_gcc_aarch64.hpp" 1598 "fetch_or" 64 64 false false [l1; l443; l469; l458; l323] [o103; o17; o12; o11] [o111] ["memory"] (Some (true, true));
Blk AArch64 "core_arch_ops_gcc_aarch64.hpp" 1624 "fetch_xor" 64 64 false false [l470] [o12; o108] [o13] ["memory"] (Some (false, false));
Blk AArch64 "core_arch_ops_gcc_aarch64.hpp" 1624 "fetch_xor" 64 64 false false [l471] [o12; o108] [o13] ["memory"] (Some (true, false));
Blk AArch64 "core_arch_ops_gcc_aarch64.hpp" 1624 "fetch_xor" 64 64 false false [l472] [o12; o108] [o13] ["memory"] (Some (false, true));
Blk AArch64 "core_arch_ops_gcc_aarch64.hpp" 1624 "fetch_xor" 64 64 false false [l473] [o12; o108] [o13] ["memory"] (Some (true, true));
Blk AArch64 "core_arch_ops_gcc_aarch64.hpp" 1636 "fetch_xor" 64 64 false false [l1; l441; l474; l457; l323] [o103; o17; o12; o11] [o111] ["memory"] (Some (false, false));
Blk AArch64 "core_arch_ops_gcc_aarch64.hpp" 1636 "fetch_xor" 64 64 false false [l1; l443; l474; l457; l323] [o103; o17; o12; o11] [o111] ["memory"] (Some (true, false));
Blk AArch64 "core_arch_ops_gcc_aarch64.hpp" 1636 "fetch_xor" 64 64 false false [l1; l441; l474; l458; l323] [o103; o17; o12; o11] [o111] ["memory"] (Some (false, true));
Blk AArch64 "core_arch_ops_gcc_aarch64.hpp" 1636 "fetch_xor" 64 64 false false [l1; l443; l474; l458; l323] [o103; o17; o12; o11] [o111] ["memory"] (Some (true, true));
Blk AArch64 "core_arch_ops_gcc_aarch64.hpp" 1710 "store" 128 128 false false [l1; l475; l476; l323] [o103; o12; o112; o113] [o114; o115] ["memory"] None;
Blk AArch64 "core_arch_ops_gcc_aarch64.hpp" 1710 "store" 128 128 false true [l1; l475; l476; l323] [o103; o12; o112; o113] [o114; o115] ["memory"] None;
Blk AArch64 "core_arch_ops_gcc_aarch64.hpp" 1723 "store" 128 128 false false [l1; l475; l477; l323] [o103; o12; o112; o113] [o114; o115] ["memory"] None;
Blk AArch64 "core_arch_ops_gcc_aarch64.hpp" 1723 "store" 128 128 false true [l1; l475; l477; l323] [o103; o12; o112; o113] [o114; o115] ["memory"] None;
Blk AArch64 "core_arch_ops_gcc_aarch64.hpp" 1742 "load" 128 128 false false [l1; l478; l477; l323] [o103; o116; o117] [o102] ["memory"] None;
Blk AArch64 "core_arch_ops_gcc_aarch64.hpp" 1742 "load" 128 128 false true [l1; l478; l477; l323] [o103; o116; o117] [o102] ["memory"] None;
Blk AArch64 "core_arch_ops_gcc_aarch64.hpp" 1755 "load" 128 128 false false [l1; l479; l477; l323] [o103; o116; o117] [o102] ["memory"] None;
Blk AArch64 "core_arch_ops_gcc_aarch64.hpp" 1755 "load" 128 128 false true [l1; l479; l477; l323] [o103; o116; o117] [o102] ["memory"] None;
Blk AArch64 "core_arch_ops_gcc_aarch64.hpp" 1778 "exchange" 128 128 false false [l1; l475; l477; l323] [o103; o12; o112; o113] [o114; o115] ["memory"] (Some (false, false));
Blk AArch64 "core_arch_ops_gcc_aarch64.hpp" 1778 "exchange" 128 128 false true [l1; l475; l477; l323] [o103; o12; o112; o113] [o114; o115] ["memory"] (Some (false, false));
Blk AArch64 "core_arch_ops_gcc_aarch64.hpp" 1778 "exchange" 128 128 false false [l1; l480; l477; l323] [o103; o12; o112; o113] [o114; o115] ["memory"] (Some (true, false));
Blk AArch64 "core_arch_ops_gcc_aarch64.hpp" 1778 "exchange" 128 128 false true [l1; l480; l477; l323] [o103; o12; o112; o113] [o114; o115] ["memory"] (Some (true, false));
Blk AArch64 "core_arch_ops_gcc_aarch64.hpp" 1778 "exchange" 128 128 false false [l1; l475; l476; l323] [o103; o12; o112; o113] [o114; o115] ["memory"] (Some (false, true));
Blk AArch64 "core_arch_ops_gcc_aarch64.hpp" 1778 "exchange" 128 128 false true [l1; l475; l476; l323] [o103; o12; o112; o113] [o114; o115] ["memory"] (Some (false, true));
Blk AArch64 "core_arch_ops_gcc_aarch64.hpp" 1778 "exchange" 128 128 false false [l1; l480; l476; l323] [o103; o12; o112; o113] [o114; o115] ["memory"] (Some (true, true));
Blk AArch64 "core_arch_ops_gcc_aarch64.hpp" 1778 "exchange" 128 128 false true [l1; l480; l476; l323] [o103; o12; o112; o113] [o114; o115] ["memory"] (Some (true, true));
Blk AArch64 "core_arch_ops_gcc_aarch64.hpp" 1806 "compare_exchange_weak" 128 128 false false [l331; l475; l481; l482; l333; l483; l335; l1] [o104; o12; o112; o113] [o118; o119; o120; o121] ["cc"; "memory"] (Some (false, false));
Blk AArch64 "core_arch_ops_gcc_aarch64.hpp" 1806 "compare_exchange_weak" 128 128 false true [l331; l475; l481; l482; l333; l483; l335; l1] [o104; o12; o112; o113] [o118; o119; o120; o121] ["cc"; "memory"] (Some (false, false));
Blk AArch64 "core_arch_ops_gcc_aarch64.hpp" 1806 "compare_exchange_weak" 128 128 false false [l331; l480; l481; l482; l333; l483; l335; l1] [o104; o12; o112; o113] [o118; o119; o120; o121] ["cc"; "memory"] (Some (true, false));
Blk AArch64 "core_arch_ops_gcc_aarch64.hpp" 1806 "compare_exchange_weak" 128 128 false true [l331; l480; l481; l482; l333; l483; l335; l1] [o104; o12; o112; o113] [o118; o119; o120; o121] ["cc"; "memory"] (Some (true, false));
Blk AArch64 "core_arch_ops_gcc_aarch64.hpp" 1806 "compare_exchange_weak" 128 128 false false [l331; l475; l481; l482; l333; l484; l335; l1] [o104; o12; o112; o113] [o118; o119; o120; o121] ["cc"; "memory"] (Some (false, true));
Blk AArch64 "core_arch_ops_gcc_aarch64.hpp" 1806 "compare_exchange_weak" 128 128 false true [l331; l475; l481; l482; l333; l484; l335; l1] [o104; o12; o112; o113] [o118; o119; o120; o121] ["cc"; "memory"] (Some (false, true));
Blk AArch64 "core_arch_ops_gcc_aarch64.hpp" 1806 "compare_exchange_weak" 128 128 false false [l331; l480; l481; l482; l333; l484; l335; l1] [o104; o12; o112; o113] [o118; o119; o120; o121] ["cc"; "memory"] (Some (true, true));
Blk AArch64 "core_arch_ops_gcc_aarch64.hpp" 1806 "compare_exchange_weak" 128 128 false true [l331; l480; l481; l482; l333; l484; l335; l1] [o104; o12; o112; o113] [o118; o119; o120; o121] ["cc"; "memory"] (Some (true, true));
Blk AArch64 "core_arch_ops_gcc_aarch64.hpp" 1840 "compare_exchange_strong" 128 128 false false [l1; l475; l481; l482; l337; l483; l338; l15; l339] [o104; o12; o112; o113] [o118; o119; o120; o121] ["cc"; "memory"] (Some (false, false));
Blk AArch64 "core_arch_ops_gcc_aarch64.hpp" 1840 "compare_exchange_strong" 128 128 false true [l1; l475; l481; l482; l337; l483; l338; l15; l339] [o104; o12; o112; o113] [o118; o119; o120; o121] ["cc"; "memory"] (Some (false, false));
Blk AArch64 "core_arch_ops_gcc_aarch64.hpp" 1840 "compare_exchange_strong" 128 128 false false [l1; l480; l481; l482; l337; l483; l338; l15; l339] [o104; o12; o112; o113] [o118; o119; o120; o121] ["cc"; "memory"] (Some (true, false));
Blk AArch64 "core_arch_ops_gcc_aarch64.hpp" 1840 "compare_exchange_strong" 128 128 false true [l1; l480; l481; l482; l337; l483; l338; l15; l339] [o104; o12; o112; o113] [o118; o119; o120; o121] ["cc"; "memory"] (Some (true, false));
Blk AArch64 "core_arch_ops_gcc_aarch64.hpp" 1840 "compare_exchange_strong" 128 128 false false [l1; l475; l481; l482; l337; l484; l338; l15; l339] [o104; o12; o112; o113] [o118; o119; o120; o121] ["cc"; "memory"] (Some (false, true));
Blk AArch64 "core_arch_ops_gcc_aarch64.hpp" 1840 "compare_exchange_strong" 128 128 false true [l1; l475; l481; l482; l337; l484; l338; l15; l339] [o104; o12; o112; o113] [o118; o119; o120; o121] ["cc"; "memory"] (Some (false, true));
Blk AArch64 "core_arch_ops_gcc_aarch64.hpp" 1840 "compare_exchange_strong" 128 128 false false [l1; l480; l481; l482; l337; l484; l338; l15; l339] [o104; o12; o112; o113] [o118; o119; o120; o121] ["cc"; "memory"] (Some (true, true));
Blk AArch64 "core_arch_ops_gcc_aarch64.hpp" 1840 "compare_exchange_strong" 128 128 false true [l1; l480; l481; l482; l337; l484; l338; l15; l339] [o104; o12; o112; o113] [o118; o119; o120; o121] ["cc"; "memory"] (Some (true, true));
Blk AArch64 "core_arch_ops_gcc_aarch64.hpp" 1874 "fetch_add" 128 128 false false [l1; l475; l485; l486; l487; l323] [o103; o12; o112; o113; o122; o123] [o114; o115] ["cc"; "memory"] (Some (false, false));
Blk AArch64 "core_arch_ops_gcc_aarch64.hpp" 1874 "fetch_add" 128 128 false true [l1; l475; l488; l489; l487; l323] [o103; o12; o112; o113; o122; o123] [o114; o115] ["cc"; "memory"] (Some (false, false));
Blk AArch64 "core_arch_ops_gcc_aarch64.hpp" 1874 "fetch_add" 128 128 false false [l1; l480; l485; l486; l487; l323] [o103; o12; o112; o113; o122; o123] [o114; o115] ["cc"; "memory"] (Some (true, false));
Blk AArch64 "core_arch_ops_gcc_aarch64.hpp" 1874 "fetch_add" 128 128 false true [l1; l480; l488; l489; l487; l323] [o103; o12; o112; o113; o122; o123] [o114; o115] ["cc"; "memory"] (Some (true, false));
Blk AArch64 "core_arch_ops_gcc_aarch64.hpp" 1874 "fetch_add" 128 128 false false [l1; l475; l485; l486; l490; l323] [o103; o12; o112; o113; o122; o123] [o114; o115] ["cc"; "memory"] (Some (false, true));
Blk AArch64 "core_arch_ops_gcc_aarch64.hpp" 1874 "fetch_add" 128 128 false true [l1; l475; l488; l489; l490; l323] [o103; o12; o112; o113; o122; o123] [o114; o115] ["cc"; "memory"] (Some (false, true));
Blk AArch64 "core_arch_ops_gcc_aarch64.hpp" 1874 "fetch_add" 128 128 false false [l1; l480; l485; l486; l490; l323] [o103; o12; o112; o113; o122; o123] [o114; o115] ["cc"; "memory"] (Some (true, true));
Blk AArch64 "core_arch_ops_gcc_aarch64.hpp" 1874 "fetch_add" 128 128 false true [l1; l480; l488; l489; l490; l323] [o103; o12; o112; o113; o122; o123] [o114; o115] ["cc"; "memory"] (Some (true, true));
Blk AArch64 "core_arch_ops_gcc_aarch64.hpp" 1905 "fetch_sub" 128 128 false false [l1; l475; l491; l492; l487; l323] [o103; o12; o112; o113; o122; o123] [o114; o115] ["cc"; "memory"] (Some (false, false));
Blk AArch64 "core_arch_ops_gcc_aarch64.hpp" 1905 "fetch_sub" 128 128 false true [l1; l475; l493; l494; l487; l323] [o103; o12; o112; o113; o122; o123] [o114; o115] ["cc"; "memory"] (Some (false, false));
Blk AArch64 "core_arch_ops_gcc_aarch64.hpp" 1905 "fetch_sub" 128 128 false false [l1; l480; l491; l492; l487; l323] [o103; o12; o112; o113; o122; o123] [o114; o115] ["cc"; "memory"] (Some (true, false));
Blk AArch64 "core_arch_ops_gcc_aarch64.hpp" 1905 "fetch_sub" 128 128 false true [l1; l480; l493; l494; l487; l323] [o103; o12; o112; o113; o122; o123] [o114; o115] ["cc"; "memory"] (Some (true, false));
Blk AArch64 "core_arch_ops_gcc_aarch64.hpp" 1905 "fetch_sub" 128 128 false false [l1; l475; l491; l492; l490; l323] [o103; o12; o112; o113; o122; o123] [o114; o115] ["cc"; "memory"] (Some (false, true));
Blk AArch64 "core_arch_ops_gcc_aarch64.hpp" 1905 "fetch_sub" 128 128 false true [l1; l475; l493; l494; l490; l323] [o103; o12; o112; o113; o122; o123] [o114; o115] ["cc"; "memory"] (Some (false, true));
Blk AArch64 "core_arch_ops_gcc_aarch64.hpp" 1905 "fetch_sub" 128 128 false false [l1; l480; l491; l492; l490; l323] [o103; o12; o112; o113; o122; o123] [o114; o115] ["cc"; "memory"] (Some (true, true));
Blk AArch64 "core_arch_ops_gcc_aarch64.hpp" 1905 "fetch_sub" 128 128 false true [l1; l480; l493; l494; l490; l323] [o103; o12; o112; o113; o122; o123] [o114; o115] ["cc"; "memory"] (Some (true, true));
Blk AArch64 "core_arch_ops_gcc_aarch64.hpp" 1936 "fetch_and" 128 128 false false [l1; l475; l495; l496; l487; l323] [o103; o12; o112; o113; o122; o123] [o124; o125] ["cc"; "memory"] (Some (false, false));
Blk AArch64 "core_arch_ops_gcc_aarch64.hpp" 1936 "fetch_and" 128 128 false true [l1; l475; l495; l496; l487; l323] [o103; o12; o112; o113; o122; o123] [o124; o125] ["cc"; "memory"] (Some (false, false));
Blk AArch64 "core_arch_ops_gcc_aarch64.hpp" 1936 "fetch_and" 128 128 false false [l1; l480; l495; l496; l487; l323] [o103; o12; o112; o113; o122; o123] [o124; o125] ["cc"; "memory"] (Some (true, false));
Blk AArch64 "core_arch_ops_gcc_aarch64.hpp" 1936 "fetch_and" 128 128 false true [l1; l480; l495; l496; l487; l323] [o103; o12; o112; o113; o122; o123] [o124; o125] ["cc"; "memory"] (Some (true, false));
Blk AArch64 "core_arch_ops_gcc_aarch64.hpp" 1936 "fetch_and" 128 128 false false [l1; l475; l495; l496; l490; l323] [o103; o12; o112; o113; o122; o123] [o124; o125] ["cc"; "memory"] (Some (false, true));
Blk AArch64 "core_arch_ops_gcc_aarch64.hpp" 1936 "fetch_and" 128 128 false true [l1; l475; l495; l496; l490; l323] [o103; o12; o112; o113; o122; o123] [o124; o125] ["cc"; "memory"] (Some (false, true));
Blk AArch64 "core_arch_ops_gcc_aarch64.hpp" 1936 "fetch_and" 128 128 false false [l1; l480; l495; l496; l490; l323] [o103; o12; o112; o113; o122; o123] [o124; o125] ["cc"; "memory"] (Some (true, true));
Blk AArch64 "core_arch_ops_gcc_aarch64.hpp" 1936 "fetch_and" 128 128 false true [l1; l480; l495; l496; l490; l323] [o103; o12; o112; o113; o122; o123] [o124; o125] ["cc"; "memory"] (Some (true, true));
Blk AArch64 "core_arch_ops_gcc_aarch64.hpp" 1967 "fetch_or" 128 128 false false [l1; l475; l497; l498; l487; l323] [o103; o12; o112; o113; o122; o123] [o124; o125] ["cc"; "memory"] (Some (false, false));
Blk AArch64 "core_arch_ops_gcc_aarch64.hpp" 1967 "fetch_or" 128 128 false true [l1; l475; l497; l498; l487; l323] [o103; o12; o112; o113; o122; o123] [o124; o125] ["cc"; "memory"] (Some (false, false));
Blk AArch64 "core_arch_ops_gcc_aarch64.hpp" 1967 "fetch_or" 128 128 false false [l1; l480; l497; l498; l487; l323] [o103; o12; o112; o113; o122; o123] [o124; o125] ["cc"; "memory"] (Some (true, false));
Blk AArch64 "core_arch_ops_gcc_aarch64.hpp" 1967 "fetch_or" 128 128 false true [l1; l480; l497; l498; l487; l323] [o103; o12; o112; o113; o122; o123] [o124; o125] ["cc"; "memory"] (Some (true, false));
Blk AArch64 "core_arch_ops_gcc_aarch64.hpp" 1967 "fetch_or" 128 128 false false [l1; l475; l497; l498; l490; l323] [o103; o12; o112; o113; o122; o123] [o124; o125] ["cc"; "memory"] (Some (false, true));
Blk AArch64 "core_arch_ops_gcc_aarch64.hpp" 1967 "fetch_or" 128 128 false true [l1; l475; l497; l498; l490; l323] [o103; o12; o112; o113; o122; o123] [o124; o125] ["cc"; "memory"] (Some (false, true));
Blk AArch64 "core_arch_ops_gcc_aarch64.hpp" 1967 "fetch_or" 128 128 false false [l1; l480; l497; l498; l490; l323] [o103; o12; o112; o113; o122; o123] [o124; o125] ["cc"; "memory"] (Some (true, true));
Blk AArch64 "core_arch_ops_gcc_aarch64.hpp" 1967 "fetch_or" 128 128 false true [l1; l480; l497; l498; l490; l323] [o103; o12; o112; o113; o122; o123] [o124; o125] ["cc"; "memory"] (Some (true, true));
Blk AArch64 "core_arch_ops_gcc_aarch64.hpp" 1998 "fetch_xor" 128 128 false false [l1; l475; l499; l500; l487; l323] [o103; o12; o112; o113; o122; o123] [o124; o125] ["cc"; "memory"] (Some (false, false));
Blk AArch64 "core_arch_ops_gcc_aarch64.hpp" 1998 "fetch_xor" 128 128 false true [l1; l475; l499; l500; l487; l323] [o103; o12; o112; o113; o122; o123] [o124; o125] ["cc"; "memory"] (Some (false, false));
Blk AArch64 "core_arch_ops_gcc_aarch64.hpp" 1998 "fetch_xor" 128 128 false false [l1; l480; l499; l500; l487; l323] [o103; o12; o112; o113; o122; o123] [o124; o125] ["cc"; "memory"] (Some (true, false));
Blk AArch64 "core_arch_ops_gcc_aarch64.hpp" 1998 "fetch_xor" 128 128 false true [l1; l480; l499; l500; l487; l323] [o103; o12; o112; o113; o122; o123] [o124; o125] ["cc"; "memory"] (Some (true, false));
Blk AArch64 "core_arch_ops_gcc_aarch64.hpp" 1998 "fetch_xor" 128 128 false false [l1; l475; l499; l500; l490; l323] [o103; o12; o112; o113; o122; o123] [o124; o125] ["cc"; "memory"] (Some (false, true));
Blk AArch64 "core_arch_ops_gcc_aarch64.hpp" 1998 "fetch_xor" 128 128 false true [l1; l475; l499; l500; l490; l323] [o103; o12; o112; o113; o122; o123] [o124; o125] ["cc"; "memory"] (Some (false, true));
Blk AArch64 "core_arch_ops_gcc_aarch64.hpp" 1998 "fetch_xor" 128 128 false false [l1; l480; l499; l500; l490; l323] [o103; o12; o112; o113; o122; o123] [o124; o125] ["cc"; "memory"] (Some (true, true));
Blk AArch64 "core_arch_ops_gcc_aarch64.hpp" 1998 "fetch_xor" 128 128 false true [l1; l480; l499; l500; l490; l323] [o103; o12; o112; o113; o122; o123] [o124; o125] ["cc"; "memory"] (Some (true, true));
Blk AArch64 "extra_ops_gcc_aarch64.hpp" 135 "fetch_negate" 8 8 false false [l1; l321; l623; l345; l323] [o103; o17; o12; o11] [] ["memory"] (Some (false, false));
Blk AArch64 "extra_ops_gcc_aarch64.hpp" 135 "fetch_negate" 8 8 false false [l1; l324; l623; l345; l323] [o103; o17; o12; o11] [] ["memory"] (Some (true, false));
Blk AArch64 "extra_ops_gcc_aarch64.hpp" 135 "fetch_negate" 8 8 false false [l1; l321; l623; l346; l323] [o103; o17; o12; o11] [] ["memory"] (Some (false, true));
Blk AArch64 "extra_ops_gcc_aarch64.hpp" 135 "fetch_negate" 8 8 false false [l1; l324; l623; l346; l323] [o103; o17; o12; o11] [] ["memory"] (Some (true, true));
Blk AArch64 "extra_ops_gcc_aarch64.hpp" 161 "negate" 8 8 false false [l1; l624; l625; l345; l323] [o103; o12; o17] [] ["memory"] (Some (false, false));
Blk AArch64 "extra_ops_gcc_aarch64.hpp" 161 "negate" 8 8 false false [l1; l626; l625; l345; l323] [o103; o12; o17] [] ["memory"] (Some (true, false));
Blk AArch64 "extra_ops_gcc_aarch64.hpp" 161 "negate" 8 8 false false [l1; l624; l625; l346; l323] [o103; o12; o17] [] ["memory"] (Some (false, true));
Blk AArch64 "extra_ops_gcc_aarch64.hpp" 161 "negate" 8 8 false false [l1; l626; l625; l346; l323] [o103; o12; o17] [] ["memory"] (Some (true, true));
Blk AArch64 "extra_ops_gcc_aarch64.hpp" 189 "add" 8 8 false false [l1; l624; l627; l345; l323] [o103; o12; o17] [o18] ["memory"] (Some (false, false));
Blk AArch64 "extra_ops_gcc_aarch64.hpp" 189 "add" 8 8 false false [l1; l626; l627; l345; l323] [o103; o12; o17] [o18] ["memory"] (Some (true, false));
Blk AArch64 "extra_ops_gcc_aarch64.hpp" 189 "add" 8 8 false false [l1; l624; l627; l346; l323] [o103; o12; o17] [o18] ["memory"] (Some (false, true));
Blk AArch64 "extra_ops_gcc_aarch64.hpp" 189 "add" 8 8 false false [l1; l626; l627; l346; l323] [o103; o12; o17] [o18] ["memory"] (Some (true, true));
Blk AArch64 "extra_ops_gcc_aarch64.hpp" 215 "sub" 8 8 false false [l1; l624; l628; l345; l323] [o103; o12; o17] [o18] ["memory"] (Some (false, false));
Blk AArch64 "extra_ops_gcc_aarch64.hpp" 215 "sub" 8 8 false false [l1; l626; l628; l345; l323] [o103; o12; o17] [o18] ["memory"] (Some (true, false));
Blk AArch64 "extra_ops_gcc_aarch64.hpp" 215 "sub" 8 8 false false [l1; l624; l628; l346; l323] [o103; o12; o17] [o18] ["memory"] (Some (false, true));
Blk AArch64 "extra_ops_gcc_aarch64.hpp" 215 "sub" 8 8 false false [l1; l626; l628; l346; l323] [o103; o12; o17] [o18] ["memory"] (Some (true, true));
Blk AArch64 "extra_ops_gcc_aarch64.hpp" 241 "bitwise_and" 8 8 false false [l1; l624; l629; l345; l323] [o103; o12; o17] [o110] ["memory"] (Some (false, false));
Blk AArch64 "extra_ops_gcc_aarch64.hpp" 241 "bitwise_and" 8 8 false false [l1; l626; l629; l345; l323] [o103; o12; o17] [o110] ["memory"] (Some (true, false));
Blk AArch64 "extra_ops_gcc_aarch64.hpp" 241 "bitwise_and" 8 8 false false [l1; l624; l629; l346; l323] [o103; o12; o17] [o110] ["memory"] (Some (false, true));
Blk AArch64 "extra_ops_gcc_aarch64.hpp" 241 "bitwise_and" 8 8 false false [l1; l626; l629; l346; l323] [o103; o12; o17] [o110] ["memory"] (Some (true, true));
Blk AArch64 "extra_ops_gcc_aarch64.hpp" 267 "bitwise_or" 8 8 false false [l1; l624; l630; l345; l323] [o103; o12; o17] [o110] ["memory"] (Some (false, false));
Blk AArch64 "extra_ops_gcc_aarch64.hpp" 267 "bitwise_or" 8 8 false false [l1; l626; l630; l345; l323] [o103; o12; o17] [o110] ["memory"] (Some (true, false));
Blk AArch64 "extra_ops_gcc_aarch64.hpp" 267 "bitwise_or" 8 8 false false [l1; l624; l630; l346; l323] [o103; o12; o17] [o110] ["memory"] (Some (false, true));
Blk AArch64 "extra_ops_gcc_aarch64.hpp" 267 "bitwise_or" 8 8 false false [l1; l626; l630; l346; l323] [o103; o12; o17] [o110] ["memory"] (Some (true, true));
Blk AArch64 "extra_ops_gcc_aarch64.hpp" 293 "bitwise_xor" 8 8 false false [l1; l624; l631; l345; l323] [o103; o12; o17] [o110] ["memory"] (Some (false, false));
Blk AArch64 "extra_ops_gcc_aarch64.hpp" 293 "bitwise_xor" 8 8 false false [l1; l626; l631; l345; l323] [o103; o12; o17] [o110] ["memory"] (Some (true, false));
Blk AArch64 "extra_ops_gcc_aarch64.hpp" 293 "bitwise_xor" 8 8 false false [l1; l624; l631; l346; l323] [o103; o12; o17] [o110] ["memory"] (Some (false, true));
Blk AArch64 "extra_ops_gcc_aarch64.hpp" 293 "bitwise_xor" 8 8 false false [l1; l626; l631; l346; l323] [o103; o12; o17] [o110] ["memory"] (Some (true, true));
Blk AArch64 "extra_ops_gcc_aarch64.hpp" 319 "fetch_complement" 8 8 false false [l1; l321; l632; l345; l323] [o103; o17; o12; o11] [] ["memory"] (Some (false, false));
Blk AArch64 "extra_ops_gcc_aarch64.hpp" 319 "fetch_complement" 8 8 false false [l1; l324; l632; l345; l323] [o103; o17; o12; o11] [] ["memory"] (Some (true, false));
Blk AArch64 "extra_ops_gcc_aarch64.hpp" 319 "fetch_complement" 8 8 false false [l1; l321; l632; l346; l323] [o103; o17; o12; o11] [] ["memory"] (Some (false, true));
Blk AArch64 "extra_ops_gcc_aarch64.hpp" 319 "fetch_complement" 8 8 false false [l1; l324; l632; l346; l323] [o103; o17; o12; o11] [] ["memory"] (Some (true, true));
Blk AArch64 "extra_ops_gcc_aarch64.hpp" 345 "bitwise_complement" 8 8 false false [l1; l624; l633; l345; l323] [o103; o12; o17] [] ["memory"] (Some (false, false));
Blk AArch64 "extra_ops_gcc_aarch64.hpp" 345 "bitwise_complement" 8 8 false false [l1; l626; l633; l345; l323] [o103; o12; o17] [] ["memory"] (Some (true, false));
Blk AArch64 "extra_ops_gcc_aarch64.hpp" 345 "bitwise_complement" 8 8 false false [l1; l624; l633; l346; l323] [o103; o12; o17] [] ["memory"] (Some (false, true));
Blk AArch64 "extra_ops_gcc_aarch64.hpp" 345 "bitwise_complement" 8 8 false false [l1; l626; l633; l346; l323] [o103; o12; o17] [] ["memory"] (Some (true, true));
Blk AArch64 "extra_ops_gcc_aarch64.hpp" 388 "fetch_negate" 16 16 false false [l1; l370; l623; l385; l323] [o103; o17; o12; o11] [] ["memory"] (Some (false, false));
Blk AArch64 "extra_ops_gcc_aarch64.hpp" 388 "fetch_negate" 16 16 false false [l1; l372; l623; l385; l323] [o103; o17; o12; o11] [] ["memory"] (Some (true, false));
Blk AArch64 "extra_ops_gcc_aarch64.hpp" 388 "fetch_negate" 16 16 false false [l1; l370; l623; l386; l323] [o103; o17; o12; o11] [] ["memory"] (Some (false, true));
Blk AArch64 "extra_ops_gcc_aarch64.hpp" 388 "fetch_negate" 16 16 false false [l1; l372; l623; l386; l323] [o103; o17; o12; o11] [] ["memory"] (Some (true, true));
Blk AArch64 "extra_ops_gcc_aarch64.hpp" 414 "negate" 16 16 false false [l1; l634; l625; l385; l323] [o103; o12; o17] [] ["memory"] (Some (false, false));
Blk AArch64 "extra_ops_gcc_aarch64.hpp" 414 "negate" 16 16 false false [l1; l635; l625; l385; l323] [o103; o12; o17] [] ["memory"] (Some (true, false));
Blk AArch64 "extra_ops_gcc_aarch64.hpp" 414 "negate" 16 16 false false [l1; l634; l625; l386; l323] [o103; o12; o17] [] ["memory"] (Some (false, true));
Blk AArch64 "extra_ops_gcc_aarch64.hpp" 414 "negate" 16 16 false false [l1; l635; l625; l386; l323] [o103; o12; o17] [] ["memory"] (Some (true, true));
Blk AArch64 "extra_ops_gcc_aarch64.hpp" 442 "add" 16 16 false false [l1; l634; l627; l385; l323] [o103; o12; o17] [o18] ["memory"] (Some (false, false));
Blk AArch64 "extra_ops_gcc_aarch64.hpp" 442 "add" 16 16 false false [l1; l635; l627; l385; l323] [o103; o12; o17] [o18] ["memory"] (Some (true, false));
Blk AArch64 "extra_ops_gcc_aarch64.hpp" 442 "add" 16 16 false false [l1; l634; l627; l386; l323] [o103; o12; o17] [o18] ["memory"] (Some (false, true));
Blk AArch64 "extra_ops_gcc_aarch64.hpp" 442 "add" 16 16 false false [l1; l635; l627; l386; l323] [o103; o12; o17] [o18] ["memory"] (Some (true, true));
Blk AArch64 "extra_ops_gcc_aarch64.hpp" 468 "sub" 16 16 false false [l1; l634; l628; l385; l323] [o103; o12; o17] [o18] ["memory"] (Some (false, false));
Blk AArch64 "extra_ops_gcc_aarch64.hpp" 468 "sub" 16 16 false false [l1; l635; l628; l385; l323] [o103; o12; o17] [o18] ["memory"] (Some (true, false));
Blk AArch64 "extra_ops_gcc_aarch64.hpp" 468 "sub" 16 16 false false [l1; l634; l628; l386; l323] [o103; o12; o17] [o18] ["memory"] (Some (false, true));
Blk AArch64 "extra_ops_gcc_aarch64.hpp" 468 "sub" 16 16 false false [l1; l635; l628; l386; l323] [o103; o12; o17] [o18] ["memory"] (Some (true, true));
Blk AArch64 "extra_ops_gcc_aarch64.hpp" 494 "bitwise_and" 16 16 false false [l1; l634; l629; l385; l323] [o103; o12; o17] [o110] ["memory"] (Some (false, false));
Blk AArch64 "extra_ops_gcc_aarch64.hpp" 494 "bitwise_and" 16 16 false false [l1; l635; l629; l385; l323] [o103; o12; o17] [o110] ["memory"] (Some (true, false));
Blk AArch64 "extra_ops_gcc_aarch64.hpp" 494 "bitwise_and" 16 16 false false [l1; l634; l629; l386; l323] [o103; o12; o17] [o110] ["memory"] (Some (false, true));
Blk AArch64 "extra_ops_gcc_aarch64.hpp" 494 "bitwise_and" 16 16 false false [l1; l635; l629; l386; l323] [o103; o12; o17] [o110] ["memory"] (Some (true, true));
Blk AArch64 "extra_ops_gcc_aarch64.hpp" 520 "bitwise_or" 16 16 false false [l1; l634; l630; l385; l323] [o103; o12; o17] [o110] ["memory"] (Some (false, false));
Blk AArch64 "extra_ops_gcc_aarch64.hpp" 520 "bitwise_or" 16 16 false false [l1; l635; l630; l385; l323] [o103; o12; o17] [o110] ["memory"] (Some (true, false));
Blk AArch64 "extra_ops_gcc_aarch64.hpp" 520 "bitwise_or" 16 16 false false [l1; l634; l630; l386; l323] [o103; o12; o17] [o110] ["memory"] (Some (false, true));
Blk AArch64 "extra_ops_gcc_aarch64.hpp" 520 "bitwise_or" 16 16 false false [l1; l635; l630; l386; l323] [o103; o12; o17] [o110] ["memory"] (Some (true, true));
Blk AArch64 "extra_ops_gcc_aarch64.hpp" 546 "bitwise_xor" 16 16 false false [l1; l634; l631; l385; l323] [o103; o12; o17] [o110] ["memory"] (Some (false, false));
Blk AArch64 "extra_ops_gcc_aarch64.hpp" 546 "bitwise_xor" 16 16 false false [l1; l635; l631; l385; l323] [o103; o12; o17] [o110] ["memory"] (Some (true, false));
Blk AArch64 "extra_ops_gcc_aarch64.hpp" 546 "bitwise_xor" 16 16 false false [l1; l634; l631; l386; l323] [o103; o12; o17] [o110] ["memory"] (Some (false, true));
Blk AArch64 "extra_ops_gcc_aarch64.hpp" 546 "bitwise_xor" 16 16 false false [l1; l635; l631; l386; l323] [o103; o12; o17] [o110] ["memory"] (Some (true, true));
Blk AArch64 "extra_ops_gcc_aarch64.hpp" 572 "fetch_complement" 16 16 false false [l1; l370; l632; l385; l323] [o103; o17; o12; o11] [] ["memory"] (Some (false, false));
Blk AArch64 "extra_ops_gcc_aarch64.hpp" 572 "fetch_complement" 16 16 false false [l1; l372; l632; l385; l323] [o103; o17; o12; o11] [] ["memory"] (Some (true, false));
Blk AArch64 "extra_ops_gcc_aarch64.hpp" 572 "fetch_complement" 16 16 false false [l1; l370; l632; l386; l323] [o103; o17; o12; o11] [] ["memory"] (Some (false, true));
Blk AArch64 "extra_ops_gcc_aarch64.hpp" 572 "fetch_complement" 16 16 false false [l1; l372; l632; l386; l323] [o103; o17; o12; o11] [] ["memory"] (Some (true, true));
Blk AArch64 "extra_ops_gcc_aarch64.hpp" 598 "bitwise_complement" 16 16 false false [l1; l634; l633; l385; l323] [o103; o12; o17] [] ["memory"] (Some (false, false));
Blk AArch64 "extra_ops_gcc_aarch64.hpp" 598 "bitwise_complement" 16 16 false false [l1; l635; l633; l385; l323] [o103; o12; o17] [] ["memory"] (Some (true, false));
Blk AArch64 "extra_ops_gcc_aarch64.hpp" 598 "bitwise_complement" 16 16 false false [l1; l634; l633; l386; l323] [o103; o12; o17] [] ["memory"] (Some (false, true));
Blk AArch64 "extra_ops_gcc_aarch64.hpp" 598 "bitwise_complement" 16 16 false false [l1; l635; l633; l386; l323] [o103; o12; o17] [] ["memory"] (Some (true, true));
Blk AArch64 "extra_ops_gcc_aarch64.hpp" 641 "fetch_negate" 32 32 false false [l1; l406; l623; l420; l323] [o103; o17; o12; o11] [] ["memory"] (Some (false, false));
Blk AArch64 "extra_ops_gcc_aarch64.hpp" 641 "fetch_negate" 32 32 false false [l1; l408; l623; l420; l323] [o103; o17; o12; o11] [] ["memory"] (Some (true, false));
Blk AArch64 "extra_ops_gcc_aarch64.hpp" 641 "fetch_negate" 32 32 false false [l1; l406; l623; l421; l323] [o103; o17; o12; o11] [] ["memory"] (Some (false, true));
Blk AArch64 "extra_ops_gcc_aarch64.hpp" 641 "fetch_negate" 32 32 false false [l1; l408; l623; l421; l323] [o103; o17; o12; o11] [] ["memory"] (Some (true, true));
Blk AArch64 "extra_ops_gcc_aarch64.hpp" 667 "negate" 32 32 false false [l1; l636; l625; l420; l323] [o103; o12; o17] [] ["memory"] (Some (false, false));
Blk AArch64 "extra_ops_gcc_aarch64.hpp" 667 "negate" 32 32 false false [l1; l637; l625; l420; l323] [o103; o12; o17] [] ["memory"] (Some (true, false));
Blk AArch64 "extra_ops_gcc_aarch64.hpp" 667 "negate" 32 32 false false [l1; l636; l625; l421; l323] [o103; o12; o17] [] ["memory"] (Some (false, true));
Blk AArch64 "extra_ops_gcc_aarch64.hpp" 667 "negate" 32 32 false false [l1; l637; l625; l421; l323] [o103; o12; o17] [] ["memory"] (Some (true, true));
Blk AArch64 "extra_ops_gcc_aarch64.hpp" 695 "add" 32 32 false false [l1; l636; l627; l420; l323] [o103; o12; o17] [o18] ["memory"] (Some (false, false));
Blk AArch64 "extra_ops_gcc_aarch64.hpp" 695 "add" 32 32 false false [l1; l637; l627; l420; l323] [o103; o12; o17] [o18] ["memory"] (Some (true, false));
Blk AArch64 "extra_ops_gcc_aarch64.hpp" 695 "add" 32 32 false false [l1; l636; l627; l421; l323] [o103; o12; o17] [o18] ["memory"] (Some (false, true));
Blk AArch64 "extra_ops_gcc_aarch64.hpp" 695 "add" 32 32 false false [l1; l637; l627; l421; l323] [o103; o12; o17] [o18] ["memory"] (Some (true, true));
Blk AArch64 "extra_ops_gcc_aarch64.hpp" 721 "sub" 32 32 false false [l1; l636; l628; l420; l323] [o103; o12; o17] [o18] ["memory"] (Some (false, false));
Blk AArch64 "extra_ops_gcc_aarch64.hpp" 721 "sub" 32 32 false false [l1; l637; l628; l420; l323] [o103; o12; o17] [o18] ["memory"] (Some (true, false));
Blk AArch64 "extra_ops_gcc_aarch64.hpp" 721 "sub" 32 32 false false [l1; l636; l628; l421; l323] [o103; o12; o17] [o18] ["memory"] (Some (false, true));
Blk AArch64 "extra_ops_gcc_aarch64.hpp" 721 "sub" 32 32 false false [l1; l637; l628; l421; l323] [o103; o12; o17] [o18] ["memory"] (Some (true, true));
Blk AArch64 "extra_ops_gcc_aarch64.hpp" 747 "bitwise_and" 32 32 false false [l1; l636; l629; l420; l323] [o103; o12; o17] [o110] ["memory"] (Some (false, false));
Blk AArch64 "extra_ops_gcc_aarch64.hpp" 747 "bitwise_and" 32 32 false false [l1; l637; l629; l420; l323] [o103; o12; o17] [o110] ["memory"] (Some (true, false));
Blk AArch64 "extra_ops_gcc_aarch64.hpp" 747 "bitwise_and" 32 32 false false [l1; l636; l629; l421; l323] [o103; o12; o17] [o110] ["memory"] (Some (false, true));
Blk AArch64 "extra_ops_gcc_aarch64.hpp" 747 "bitwise_and" 32 32 false false [l1; l637; l629; l421; l323] [o103; o12; o17] [o110] ["memory"] (Some (true, true));
Blk AArch64 "extra_ops_gcc_aarch64.hpp" 773 "bitwise_or" 32 32 false false [l1; l636; l630; l420; l323] [o103; o12; o17] [o110] ["memory"] (Some (false, false));
Blk AArch64 "extra_ops_gcc_aarch64.hpp" 773 "bitwise_or" 32 32 false false [l1; l637; l630; l420; l323] [o103; o12; o17] [o110] ["memory"] (Some (true, false));
Blk AArch64 "extra_ops_gcc_aarch64.hpp" 773 "bitwise_or" 32 32 false false [l1; l636; l630; l421; l323] [o103; o12; o17] [o110] ["memory"] (Some (false, true));
Blk AArch64 "extra_ops_gcc_aarch64.hpp" 773 "bitwise_or" 32 32 false false [l1; l637; l630; l421; l323] [o103; o12; o17] [o110] ["memory"] (Some (true, true));
Blk AArch64 "extra_ops_gcc_aarch64.hpp" 799 "bitwise_xor" 32 32 false false [l1; l636; l631; l420; l323] [o103; o12; o17] [o110] ["memory"] (Some (false, false));
Blk AArch64 "extra_ops_gcc_aarch64.hpp" 799 "bitwise_xor" 32 32 false false [l1; l637; l631; l420; l323] [o103; o12; o17] [o110] ["memory"] (Some (true, false));
Blk AArch64 "extra_ops_gcc_aarch64.hpp" 799 "bitwise_xor" 32 32 false false [l1; l636; l631; l421; l323] [o103; o12; o17] [o110] ["memory"] (Some (false, true));
Blk AArch64 "extra_ops_gcc_aarch64.hpp" 799 "bitwise_xor" 32 32 false false [l1; l637; l631; l421; l323] [o103; o12; o17] [o110] ["memory"] (Some (true, true));
Blk AArch64 "extra_ops_gcc_aarch64.hpp" 825 "fetch_complement" 32 32 false false [l1; l406; l632; l420; l323] [o103; o17; o12; o11] [] ["memory"] (Some (false, false));
Blk AArch64 "extra_ops_gcc_aarch64.hpp" 825 "fetch_complement" 32 32 false false [l1; l408; l632; l420; l323] [o103; o17; o12; o11] [] ["memory"] (Some (true, false));
Blk AArch64 "extra_ops_gcc_aarch64.hpp" 825 "fetch_complement" 32 32 false false [l1; l406; l632; l421; l323] [o103; o17; o12; o11] [] ["memory"] (Some (false, true));
Blk AArch64 "extra_ops_gcc_aarch64.hpp" 825 "fetch_complement" 32 32 false false [l1; l408; l632; l421; l323] [o103; o17; o12; o11] [] ["memory"] (Some (true, true));
Blk AArch64 "extra_ops_gcc_aarch64.hpp" 851 "bitwise_complement" 32 32 false false [l1; l636; l633; l420; l323] [o103; o12; o17] [] ["memory"] (Some (false, false));
Blk AArch64 "extra_ops_gcc_aarch64.hpp" 851 "bitwise_complement" 32 32 false false [l1; l637; l633; l420; l323] [o103; o12; o17] [] ["memory"] (Some (true, false));
Blk AArch64 "extra_ops_gcc_aarch64.hpp" 851 "bitwise_complement" 32 32 false false [l1; l636; l633; l421; l323] [o103; o12; o17] [] ["memory"] (Some (false, true));
Blk AArch64 "extra_ops_gcc_aarch64.hpp" 851 "bitwise_complement" 32 32 false false [l1; l637; l633; l421; l323] [o103; o12; o17] [] ["memory"] (Some (true, true));
Blk AArch64 "extra_ops_gcc_aarch64.hpp" 894 "fetch_negate" 64 64 false false [l1; l441; l638; l457; l323] [o103; o17; o12; o11] [] ["memory"] (Some (false, false));
Blk AArch64 "extra_ops_gcc_aarch64.hpp" 894 "fetch_negate" 64 64 false false [l1; l443; l638; l457; l323] [o103; o17; o12; o11] [] ["memory"] (Some (true, false));
Blk AArch64 "extra_ops_gcc_aarch64.hpp" 894 "fetch_negate" 64 64 false false [l1; l441; l638; l458; l323] [o103; o17; o12; o11] [] ["memory"] (Some (false, true));
Blk AArch64 "extra_ops_gcc_aarch64.hpp" 894 "fetch_negate" 64 64 false false [l1; l443; l638; l458; l323] [o103; o17; o12; o11] [] ["memory"] (Some (true, true));
Blk AArch64 "extra_ops_gcc_aarch64.hpp" 920 "negate" 64 64 false false [l1; l639; l640; l457; l323] [o103; o12; o17] [] ["memory"] (Some (false, false));
Blk AArch64 "extra_ops_gcc_aarch64.hpp" 920 "negate" 64 64 false false [l1; l641; l640; l457; l323] [o103; o12; o17] [] ["memory"] (Some (true, false));
Blk AArch64 "extra_ops_gcc_aarch64.hpp" 920 "negate" 64 64 false false [l1; l639; l640; l458; l323] [o103; o12; o17] [] ["memory"] (Some (false, true));
Blk AArch64 "extra_ops_gcc_aarch64.hpp" 920 "negate" 64 64 false false [l1; l641; l640; l458; l323] [o103; o12; o17] [] ["memory"] (Some (true, true));
Blk AArch64 "extra_ops_gcc_aarch64.hpp" 948 "add" 64 64 false false [l1; l639; l642; l457; l323] [o103; o12; o17] [o18] ["memory"] (Some (false, false));
Blk AArch64 "extra_ops_gcc_aarch64.hpp" 948 "add" 64 64 false false [l1; l641; l642; l457; l323] [o103; o12; o17] [o18] ["memory"] (Some (true, false));
Blk AArch64 "extra_ops_gcc_aarch64.hpp" 948 "add" 64 64 false false [l1; l639; l642; l458; l323] [o103; o12; o17] [o18] ["memory"] (Some (false, true));
Blk AArch64 "extra_ops_gcc_aarch64.hpp" 948 "add" 64 64 false false [l1; l641; l642; l458; l323] [o103; o12; o17] [o18] ["memory"] (Some (true, true));
Blk AArch64 "extra_ops_gcc_aarch64.hpp" 974 "sub" 64 64 false false [l1; l639; l643; l457; l323] [o103; o12; o17] [o18] ["memory"] (Some (false, false));
Blk AArch64 "extra_ops_gcc_aarch64.hpp" 974 "sub" 64 64 false false [l1; l641; l643; l457; l323] [o103; o12; o17] [o18] ["memory"] (Some (true, false));
Blk AArch64 "extra_ops_gcc_aarch64.hpp" 974 "sub" 64 64 false false [l1; l639; l643; l458; l323] [o103; o12; o17] [o18] ["memory"] (Some (false, true));
Blk AArch64 "extra_ops_gcc_aarch64.hpp" 974 "sub" 64 64 false false [l1; l641; l643; l458; l323] [o103; o12; o17] [o18] ["memory"] (Some (true, true));
Blk AArch64 "extra_ops_gcc_aarch64.hpp" 1000 "bitwise_and" 64 64 false false [l1; l639; l644; l457; l323] [o103; o12; o17] [o111] ["memory"] (Some (false, false));
Blk AArch64 "extra_ops_gcc_aarch64.hpp" 1000 "bitwise_and" 64 64 false false [l1; l641; l644; l457; l323] [o103; o12; o17] [o111] ["memory"] (Some (true, false));
Blk AArch64 "extra_ops_gcc_aarch64.hpp" 1000 "bitwise_and" 64 64 false false [l1; l639; l644; l458; l323] [o103; o12; o17] [o111] ["memory"] (Some (false, true));
Blk AArch64 "extra_ops_gcc_aarch64.hpp" 1000 "bitwise_and" 64 64 false false [l1; l641; l644; l458; l323] [o103; o12; o17] [o111] ["memory"] (Some (true, true));
Blk AArch64 "extra_ops_gcc_aarch64.hpp" 1026 "bitwise_or" 64 64 false false [l1; l639; l645; l457; l323] [o103; o12; o17] [o111] ["memory"] (Some (false, false));
Blk AArch64 "extra_ops_gcc_aarch64.hpp" 1026 "bitwise_or" 64 64 false false [l1; l641; l645; l457; l323] [o103; o12; o17] [o111] ["memory"] (Some (true, false));
Blk AArch64 "extra_ops_gcc_aarch64.hpp" 1026 "bitwise_or" 64 64 false false [l1; l639; l645; l458; l323] [o103; o12; o17] [o111] ["memory"] (Some (false, true));
Blk AArch64 "extra_ops_gcc_aarch64.hpp" 1026 "bitwise_or" 64 64 false false [l1; l641; l645; l458; l323] [o103; o12; o17] [o111] ["memory"] (Some (true, true));
Blk AArch64 "extra_ops_gcc_aarch64.hpp" 1052 "bitwise_xor" 64 64 false false [l1; l639; l646; l457; l323] [o103; o12; o17] [o111] ["memory"] (Some (false, false));
Blk AArch64 "extra_ops_gcc_aarch64.hpp" 1052 "bitwise_xor" 64 64 false false [l1; l641; l646; l457; l323] [o103; o12; o17] [o111] ["memory"] (Some (true, false));
Blk AArch64 "extra_ops_gcc_aarch64.hpp" 1052 "bitwise_xor" 64 64 false false [l1; l639; l646; l458; l323] [o103; o12; o17] [o111] ["memory"] (Some (false, true));
Blk AArch64 "extra_ops_gcc_aarch64.hpp" 1052 "bitwise_xor" 64 64 false false [l1; l641; l646; l458; l323] [o103; o12; o17] [o111] ["memory"] (Some (true, true));
Blk AArch64 "extra_ops_gcc_aarch64.hpp" 1078 "fetch_complement" 64 64 false false [l1; l441; l647; l457; l323] [o103; o17; o12; o11] [] ["memory"] (Some (false, false));
Blk AArch64 "extra_ops_gcc_aarch64.hpp" 1078 "fetch_complement" 64 64 false false [l1; l443; l647; l457; l323] [o103; o17; o12; o11] [] ["memory"] (Some (true, false));
Blk AArch64 "extra_ops_gcc_aarch64.hpp" 1078 "fetch_complement" 64 64 false false [l1; l441; l647; l458; l323] [o103; o17; o12; o11] [] ["memory"] (Some (false, true));
Blk AArch64 "extra_ops_gcc_aarch64.hpp" 1078 "fetch_complement" 64 64 false false [l1; l443; l647; l458; l323] [o103; o17; o12; o11] [] ["memory"] (Some (true, true));
Blk AArch64 "extra_ops_gcc_aarch64.hpp" 1104 "bitwise_complement" 64 64 false false [l1; l639; l648; l457; l323] [o103; o12; o17] [] ["memory"] (Some (false, false));
Blk AArch64 "extra_ops_gcc_aarch64.hpp" 1104 "bitwise_complement" 64 64 false false [l1; l641; l648; l457; l323] [o103; o12; o17] [] ["memory"] (Some (true, false));
Blk AArch64 "extra_ops_gcc_aarch64.hpp" 1104 "bitwise_complement" 64 64 false false [l1; l639; l648; l458; l323] [o103; o12; o17] [] ["memory"] (Some (false, true));
Blk AArch64 "extra_ops_gcc_aarch64.hpp" 1104 "bitwise_complement" 64 64 false false [l1; l641; l648; l458; l323] [o103; o12; o17] [] ["memory"] (Some (true, true));
Blk AArch64 "extra_ops_gcc_aarch64.hpp" 1149 "fetch_negate" 128 128 false false [l1; l475; l649; l650; l651; l652; l487; l323] [o103; o12; o112; o113; o122; o123] [] ["cc"; "memory"] (Some (false, false));
Blk AArch64 "extra_ops_gcc_aarch64.hpp" 1149 "fetch_negate" 128 128 false true [l1; l475; l649; l650; l653; l654; l487; l323] [o103; o12; o112; o113; o122; o123] [] ["cc"; "memory"] (Some (false, false));
Blk AArch64 "extra_ops_gcc_aarch64.hpp" 1149 "fetch_negate" 128 128 false false [l1; l480; l649; l650; l651; l652; l487; l323] [o103; o12; o112; o113; o122; o123] [] ["cc"; "memory"] (Some (true, false));
Blk AArch64 "extra_ops_gcc_aarch64.hpp" 1149 "fetch_negate" 128 128 false true [l1; l480; l649; l650; l653; l654; l487; l323] [o103; o12; o112; o113; o122; o123] [] ["cc"; "memory"] (Some (true, false));
Blk AArch64 "extra_ops_gcc_aarch64.hpp" 1149 "fetch_negate" 128 128 false false [l1; l475; l649; l650; l651; l652; l490; l323] [o103; o12; o112; o113; o122; o123] [] ["cc"; "memory"] (Some (false, true));
Blk AArch64 "extra_ops_gcc_aarch64.hpp" 1149 "fetch_negate" 128 128 false true [l1; l475; l649; l650; l653; l654; l490; l323] [o103; o12; o112; o113; o122; o123] [] ["cc"; "memory"] (Some (false, true));
Blk AArch64 "extra_ops_gcc_aarch64.hpp" 1149 "fetch_negate" 128 128 false false [l1; l480; l649; l650; l651; l652; l490; l323] [o103; o12; o112; o113; o122; o123] [] ["cc"; "memory"] (Some (true, true));
Blk AArch64 "extra_ops_gcc_aarch64.hpp" 1149 "fetch_negate" 128 128 false true [l1; l480; l649; l650; l653; l654; l490; l323] [o103; o12; o112; o113; o122; o123] [] ["cc"; "memory"] (Some (true, true));
Blk AArch64 "extra_ops_gcc_aarch64.hpp" 1180 "negate" 128 128 false false [l1; l655; l656; l657; l651; l652; l487; l323] [o103; o12; o122; o123] [] ["cc"; "memory"] (Some (false, false));
Blk AArch64 "extra_ops_gcc_aarch64.hpp" 1180 "negate" 128 128 false true [l1; l655; l656; l657; l653; l654; l487; l323] [o103; o12; o122; o123] [] ["cc"; "memory"] (Some (false, false));
Blk AArch64 "extra_ops_gcc_aarch64.hpp" 1180 "negate" 128 128 false false [l1; l658; l656; l657; l651; l652; l487; l323] [o103; o12; o122; o123] [] ["cc"; "memory"] (Some (true, false));
Blk AArch64 "extra_ops_gcc_aarch64.hpp" 1180 "negate" 128 128 false true [l1; l658; l656; l657; l653; l654; l487; l323] [o103; o12; o122; o123] [] ["cc"; "memory"] (Some (true, false));
Blk AArch64 "extra_ops_gcc_aarch64.hpp" 1180 "negate" 128 128 false false [l1; l655; l656; l657; l651; l652; l490; l323] [o103; o12; o122; o123] [] ["cc"; "memory"] (Some (false, true));
Blk AArch64 "extra_ops_gcc_aarch64.hpp" 1180 "negate" 128 128 false true [l1; l655; l656; l657; l653; l654; l490; l323] [o103; o12; o122; o123] [] ["cc"; "memory"] (Some (false, true));
Blk AArch64 "extra_ops_gcc_aarch64.hpp" 1180 "negate" 128 128 false false [l1; l658; l656; l657; l651; l652; l490; l323] [o103; o12; o122; o123] [] ["cc"; "memory"] (Some (true, true));
Blk AArch64 "extra_ops_gcc_aarch64.hpp" 1180 "negate" 128 128 false true [l1; l658; l656; l657; l653; l654; l490; l323] [o103; o12; o122; o123] [] ["cc"; "memory"] (Some (true, true));
Blk AArch64 "extra_ops_gcc_aarch64.hpp" 1211 "add" 128 128 false false [l1; l655; l659; l660; l487; l323] [o103; o12; o122; o123] [o114; o115] ["cc"; "memory"] (Some (false, false));
Blk AArch64 "extra_ops_gcc_aarch64.hpp" 1211 "add" 128 128 false true [l1; l655; l661; l662; l487; l323] [o103; o12; o122; o123] [o114; o115] ["cc"; "memory"] (Some (false, false));
Blk AArch64 "extra_ops_gcc_aarch64.hpp" 1211 "add" 128 128 false false [l1; l658; l659; l660; l487; l323] [o103; o12; o122; o123] [o114; o115] ["cc"; "memory"] (Some (true, false));
Blk AArch64 "extra_ops_gcc_aarch64.hpp" 1211 "add" 128 128 false true [l1; l658; l661; l662; l487; l323] [o103; o12; o122; o123] [o114; o115] ["cc"; "memory"] (Some (true, false));
Blk AArch64 "extra_ops_gcc_aarch64.hpp" 1211 "add" 128 128 false false [l1; l655; l659; l660; l490; l323] [o103; o12; o122; o123] [o114; o115] ["cc"; "memory"] (Some (false, true));
Blk AArch64 "extra_ops_gcc_aarch64.hpp" 1211 "add" 128 128 false true [l1; l655; l661; l662; l490; l323] [o103; o12; o122; o123] [o114; o115] ["cc"; "memory"] (Some (false, true));
Blk AArch64 "extra_ops_gcc_aarch64.hpp" 1211 "add" 128 128 false false [l1; l658; l659; l660; l490; l323] [o103; o12; o122; o123] [o114; o115] ["cc"; "memory"] (Some (true, true));
Blk AArch64 "extra_ops_gcc_aarch64.hpp" 1211 "add" 128 128 false true [l1; l658; l661; l662; l490; l323] [o103; o12; o122; o123] [o114; o115] ["cc"; "memory"] (Some (true, true));
Blk AArch64 "extra_ops_gcc_aarch64.hpp" 1240 "sub" 128 128 false false [l1; l655; l663; l664; l487; l323] [o103; o12; o122; o123] [o114; o115] ["cc"; "memory"] (Some (false, false));
Blk AArch64 "extra_ops_gcc_aarch64.hpp" 1240 "sub" 128 128 false true [l1; l655; l665; l666; l487; l323] [o103; o12; o122; o123] [o114; o115] ["cc"; "memory"] (Some (false, false));
Blk AArch64 "extra_ops_gcc_aarch64.hpp" 1240 "sub" 128 128 false false [l1; l658; l663; l664; l487; l323] [o103; o12; o122; o123] [o114; o115] ["cc"; "memory"] (Some (true, false));
Blk AArch64 "extra_ops_gcc_aarch64.hpp" 1240 "sub" 128 128 false true [l1; l658; l665; l666; l487; l323] [o103; o12; o122; o123] [o114; o115] ["cc"; "memory"] (Some (true, false));
Blk AArch64 "extra_ops_gcc_aarch64.hpp" 1240 "sub" 128 128 false false [l1; l655; l663; l664; l490; l323] [o103; o12; o122; o123] [o114; o115] ["cc"; "memory"] (Some (false, true));
Blk AArch64 "extra_ops_gcc_aarch64.hpp" 1240 "sub" 128 128 false true [l1; l655; l665; l666; l490; l323] [o103; o12; o122; o123] [o114; o115] ["cc"; "memory"] (Some (false, true));
Blk AArch64 "extra_ops_gcc_aarch64.hpp" 1240 "sub" 128 128 false false [l1; l658; l663; l664; l490; l323] [o103; o12; o122; o123] [o114; o115] ["cc"; "memory"] (Some (true, true));
Blk AArch64 "extra_ops_gcc_aarch64.hpp" 1240 "sub" 128 128 false true [l1; l658; l665; l666; l490; l323] [o103; o12; o122; o123] [o114; o115] ["cc"; "memory"] (Some (true, true));
Blk AArch64 "extra_ops_gcc_aarch64.hpp" 1269 "bitwise_and" 128 128 false false [l1; l655; l667; l668; l487; l323] [o103; o12; o122; o123] [o124; o125] ["memory"] (Some (false, false));
Blk AArch64 "extra_ops_gcc_aarch64.hpp" 1269 "bitwise_and" 128 128 false true [l1; l655; l667; l668; l487; l323] [o103; o12; o122; o123] [o124; o125] ["memory"] (Some (false, false));
Blk AArch64 "extra_ops_gcc_aarch64.hpp" 1269 "bitwise_and" 128 128 false false [l1; l658; l667; l668; l487; l323] [o103; o12; o122; o123] [o124; o125] ["memory"] (Some (true, false));
Blk AArch64 "extra_ops_gcc_aarch64.hpp" 1269 "bitwise_and" 128 128 false true [l1; l658; l667; l668; l487; l323] [o103; o12; o122; o123] [o124; o125] ["memory"] (Some (true, false));
Blk AArch64 "extra_ops_gcc_aarch64.hpp" 1269 "bitwise_and" 128 128 false false [l1; l655; l667; l668; l490; l323] [o103; o12; o122; o123] [o124; o125] ["memory"] (Some (false, true));
Blk AArch64 "extra_ops_gcc_aarch64.hpp" 1269 "bitwise_and" 128 128 false true [l1; l655; l667; l668; l490; l323] [o103; o12; o122; o123] [o124; o125] ["memory"] (Some (false, true));
Blk AArch64 "extra_ops_gcc_aarch64.hpp" 1269 "bitwise_and" 128 128 false false [l1; l658; l667; l668; l490; l323] [o103; o12; o122; o123] [o124; o125] ["memory"] (Some (true, true));
Blk AArch64 "extra_ops_gcc_aarch64.hpp" 1269 "bitwise_and" 128 128 false true [l1; l658; l667; l668; l490; l323] [o103; o12; o122; o123] [o124; o125] ["memory"] (Some (true, true));
Blk AArch64 "extra_ops_gcc_aarch64.hpp" 1298 "bitwise_or" 128 128 false false [l1; l655; l669; l670; l487; l323] [o103; o12; o122; o123] [o124; o125] ["memory"] (Some (false, false));
Blk AArch64 "extra_ops_gcc_aarch64.hpp" 1298 "bitwise_or" 128 128 false true [l1; l655; l669; l670; l487; l323] [o103; o12; o122; o123] [o124; o125] ["memory"] (Some (false, false));
Blk AArch64 "extra_ops_gcc_aarch64.hpp" 1298 "bitwise_or" 128 128 false false [l1; l658; l669; l670; l487; l323] [o103; o12; o122; o123] [o124; o125] ["memory"] (Some (true, false));
Blk AArch64 "extra_ops_gcc_aarch64.hpp" 1298 "bitwise_or" 128 128 false true [l1; l658; l669; l670; l487; l323] [o103; o12; o122; o123] [o124; o125] ["memory"] (Some (true, false));
Blk AArch64 "extra_ops_gcc_aarch64.hpp" 1298 "bitwise_or" 128 128 false false [l1; l655; l669; l670; l490; l323] [o103; o12; o122; o123] [o124; o125] ["memory"] (Some (false, true));
Blk AArch64 "extra_ops_gcc_aarch64.hpp" 1298 "bitwise_or" 128 128 false true [l1; l655; l669; l670; l490; l323] [o103; o12; o122; o123] [o124; o125] ["memory"] (Some (false, true));
Blk AArch64 "extra_ops_gcc_aarch64.hpp" 1298 "bitwise_or" 128 128 false false [l1; l658; l669; l670; l490; l323] [o103; o12; o122; o123] [o124; o125] ["memory"] (Some (true, true));
Blk AArch64 "extra_ops_gcc_aarch64.hpp" 1298 "bitwise_or" 128 128 false true [l1; l658; l669; l670; l490; l323] [o103; o12; o122; o123] [o124; o125] ["memory"] (Some (true, true));
Blk AArch64 "extra_ops_gcc_aarch64.hpp" 1327 "bitwise_xor" 128 128 false false [l1; l655; l671; l672; l487; l323] [o103; o12; o122; o123] [o124; o125] ["memory"] (Some (false, false));
Blk AArch64 "extra_ops_gcc_aarch64.hpp" 1327 "bitwise_xor" 128 128 false true [l1; l655; l671; l672; l487; l323] [o103; o12; o122; o123] [o124; o125] ["memory"] (Some (false, false));
Blk AArch64 "extra_ops_gcc_aarch64.hpp" 1327 "bitwise_xor" 128 128 false false [l1; l658; l671; l672; l487; l323] [o103; o12; o122; o123] [o124; o125] ["memory"] (Some (true, false));
Blk AArch64 "extra_ops_gcc_aarch64.hpp" 1327 "bitwise_xor" 128 128 false true [l1; l658; l671; l672; l487; l323] [o103; o12; o122; o123] [o124; o125] ["memory"] (Some (true, false));
Blk AArch64 "extra_ops_gcc_aarch64.hpp" 1327 "bitwise_xor" 128 128 false false [l1; l655; l671; l672; l490; l323] [o103; o12; o122; o123] [o124; o125] ["memory"] (Some (false, true));
Blk AArch64 "extra_ops_gcc_aarch64.hpp" 1327 "bitwise_xor" 128 128 false true [l1; l655; l671; l672; l490; l323] [o103; o12; o122; o123] [o124; o125] ["memory"] (Some (false, true));
Blk AArch64 "extra_ops_gcc_aarch64.hpp" 1327 "bitwise_xor" 128 128 false false [l1; l658; l671; l672; l490; l323] [o103; o12; o122; o123] [o124; o125] ["memory"] (Some (true, true));
Blk AArch64 "extra_ops_gcc_aarch64.hpp" 1327 "bitwise_xor" 128 128 false true [l1; l658; l671; l672; l490; l323] [o103; o12; o122; o123] [o124; o125] ["memory"] (Some (true, true));
Blk AArch64 "extra_ops_gcc_aarch64.hpp" 1356 "fetch_complement" 128 128 false false [l1; l475; l649; l650; l487; l323] [o103; o12; o112; o113; o122; o123] [] ["memory"] (Some (false, false));
Blk AArch64 "extra_ops_gcc_aarch64.hpp" 1356 "fetch_complement" 128 128 false true [l1; l475; l649; l650; l487; l323] [o103; o12; o112; o113; o122; o123] [] ["memory"] (Some (false, false));
Blk AArch64 "extra_ops_gcc_aarch64.hpp" 1356 "fetch_complement" 128 128 false false [l1; l480; l649; l650; l487; l323] [o103; o12; o112; o113; o122; o123] [] ["memory"] (Some (true, false));
Blk AArch64 "extra_ops_gcc_aarch64.hpp" 1356 "fetch_complement" 128 128 false true [l1; l480; l649; l650; l487; l323] [o103; o12; o112; o113; o122; o123] [] ["memory"] (Some (true, false));
Blk AArch64 "extra_ops_gcc_aarch64.hpp" 1356 "fetch_complement" 128 128 false false [l1; l475; l649; l650; l490; l323] [o103; o12; o112; o113; o122; o123] [] ["memory"] (Some (false, true));
Blk AArch64 "extra_ops_gcc_aarch64.hpp" 1356 "fetch_complement" 128 128 false true [l1; l475; l649; l650; l490; l323] [o103; o12; o112; o113; o122; o123] [] ["memory"] (Some (false, true));
Blk AArch64 "extra_ops_gcc_aarch64.hpp" 1356 "fetch_complement" 128 128 false false [l1; l480; l649; l650; l490; l323] [o103; o12; o112; o113; o122; o123] [] ["memory"] (Some (true, true));
Blk AArch64 "extra_ops_gcc_aarch64.hpp" 1356 "fetch_complement" 128 128 false true [l1; l480; l649; l650; l490; l323] [o103; o12; o112; o113; o122; o123] [] ["memory"] (Some (true, true));
Blk AArch64 "extra_ops_gcc_aarch64.hpp" 1385 "bitwise_complement" 128 128 false false [l1; l655; l656; l657; l487; l323] [o103; o12; o122; o123] [] ["memory"] (Some (false, false));
Blk AArch64 "extra_ops_gcc_aarch64.hpp" 1385 "bitwise_complement" 128 128 false true [l1; l655; l656; l657; l487; l323] [o103; o12; o122; o123] [] ["memory"] (Some (false, false));
Blk AArch64 "extra_ops_gcc_aarch64.hpp" 1385 "bitwise_complement" 128 128 false false [l1; l658; l656; l657; l487; l323] [o103; o12; o122; o123] [] ["memory"] (Some (true, false));
Blk AArch64 "extra_ops_gcc_aarch64.hpp" 1385 "bitwise_complement" 128 128 false true [l1; l658; l656; l657; l487; l323] [o103; o12; o122; o123] [] ["memory"] (Some (true, false));
Blk AArch64 "extra_ops_gcc_aarch64.hpp" 1385 "bitwise_complement" 128 128 false false [l1; l655; l656; l657; l490; l323] [o103; o12; o122; o123] [] ["memory"] (Some (false, true));
Blk AArch64 "extra_ops_gcc_aarch64.hpp" 1385 "bitwise_complement" 128 128 false true [l1; l655; l656; l657; l490; l323] [o103; o12; o122; o123] [] ["memory"] (Some (false, true));
Blk AArch64 "extra_ops_gcc_aarch64.hpp" 1385 "bitwise_complement" 128 128 false false [l1; l658; l656; l657; l490; l323] [o103; o12; o122; o123] [] ["memory"] (Some (true, true));
Blk AArch64 "extra_ops_gcc_aarch64.hpp" 1385 "bitwise_complement" 128 128 false true [l1; l658; l656; l657; l490; l323] [o103; o12; o122; o123] [] ["memory"] (Some (true, true))].

Definition blocks_sparc : list block := [
Blk Sparc "core_arch_ops_gcc_sparc.hpp" 45 "fence_before" 0 0 false false [l170] [] [] ["memory"] None;
Blk Sparc "core_arch_ops_gcc_sparc.hpp" 47 "fence_before" 0 0 false false [l171] [] [] ["memory"] None;
Blk Sparc "core_arch_ops_gcc_sparc.hpp" 53 "fence_after" 0 0 false false [l170] [] [] ["memory"] None;
Blk Sparc "core_arch_ops_gcc_sparc.hpp" 55 "fence_after" 0 0 false false [l171] [] [] ["memory"] None;
Blk Sparc "core_arch_ops_gcc_sparc.hpp" 61 "fence_after_store" 0 0 false false [l170] [] [] ["memory"] None;
Blk Sparc "core_arch_ops_gcc_sparc.hpp" 95 "compare_exchange_strong" 32 32 false false [l172] [o5] [o39; o40] ["memory"] None;
Blk Sparc "core_arch_ops_gcc_sparc.hpp" 120 "exchange" 32 32 false false [l173] [o41] [o39] ["memory"] None;
Blk Sparc "core_arch_ops_gcc_sparc.hpp" 180 "compare_exchange_strong" 64 64 false false [l174] [o5] [o39; o40] ["memory"] None].

Definition blocks_x86 : list block := [
Blk X86 "core_arch_ops_gcc_x86.hpp" 49 "fence_before" 0 0 false false [] [] [] ["memory"] None;
Blk X86 "core_arch_ops_gcc_x86.hpp" 55 "fence_after" 0 0 false false [] [] [] ["memory"] None;
Blk X86 "core_arch_ops_gcc_x86.hpp" 126 "fetch_add" 8 8 false false [l175] [o42; o28] [] ["cc"; "memory"] None;
Blk X86 "core_arch_ops_gcc_x86.hpp" 140 "exchange" 8 8 false false [l176] [o42; o28] [] ["memory"] None;
Blk X86 "core_arch_ops_gcc_x86.hpp" 158 "compare_exchange_strong" 8 8 false false [l177] [o43; o28; o44] [o45] ["cc"; "memory"] None;
Blk X86 "core_arch_ops_gcc_x86.hpp" 166 "compare_exchange_strong" 8 8 false false [l177; l178] [o43; o28; o46] [o45] ["cc"; "memory"] None;
Blk X86 "core_arch_ops_gcc_x86.hpp" 198 "fetch_and" 8 8 false false [l179; l180; l181; l182; l183] [o47; o48; o49] [o50] ["cc"; "memory"] None;
Blk X86 "core_arch_ops_gcc_x86.hpp" 207 "fetch_or" 8 8 false false [l179; l180; l184; l182; l183] [o47; o48; o49] [o50] ["cc"; "memory"] None;
Blk X86 "core_arch_ops_gcc_x86.hpp" 216 "fetch_xor" 8 8 false false [l179; l180; l185; l182; l183] [o47; o48; o49] [o50] ["cc"; "memory"] None;
Blk X86 "core_arch_ops_gcc_x86.hpp" 235 "fetch_add" 16 16 false false [l186] [o42; o28] [] ["cc"; "memory"] None;
Blk X86 "core_arch_ops_gcc_x86.hpp" 249 "exchange" 16 16 false false [l187] [o42; o28] [] ["memory"] None;
Blk X86 "core_arch_ops_gcc_x86.hpp" 267 "compare_exchange_strong" 16 16 false false [l188] [o43; o28; o44] [o45] ["cc"; "memory"] None;
Blk X86 "core_arch_ops_gcc_x86.hpp" 275 "compare_exchange_strong" 16 16 false false [l188; l178] [o43; o28; o46] [o45] ["cc"; "memory"] None;
Blk X86 "core_arch_ops_gcc_x86.hpp" 307 "fetch_and" 16 16 false false [l179; l180; l189; l190; l183] [o47; o48; o49] [o50] ["cc"; "memory"] None;
Blk X86 "core_arch_ops_gcc_x86.hpp" 316 "fetch_or" 16 16 false false [l179; l180; l191; l190; l183] [o47; o48; o49] [o50] ["cc"; "memory"] None;
Blk X86 "core_arch_ops_gcc_x86.hpp" 325 "fetch_xor" 16 16 false false [l179; l180; l192; l190; l183] [o47; o48; o49] [o50] ["cc"; "memory"] None;
Blk X86 "core_arch_ops_gcc_x86.hpp" 343 "fetch_add" 32 32 false false [l193] [o41; o28] [] ["cc"; "memory"] None;
Blk X86 "core_arch_ops_gcc_x86.hpp" 357 "exchange" 32 32 false false [l194] [o41; o28] [] ["memory"] None;
Blk X86 "core_arch_ops_gcc_x86.hpp" 375 "compare_exchange_strong" 32 32 false false [l195] [o43; o28; o44] [o8] ["cc"; "memory"] None;
Blk X86 "core_arch_ops_gcc_x86.hpp" 383 "compare_exchange_strong" 32 32 false false [l195; l178] [o43; o28; o46] [o8] ["cc"; "memory"] None;
Blk X86 "core_arch_ops_gcc_x86.hpp" 415 "fetch_and" 32 32 false false [l179; l196; l197; l198; l183] [o47; o48; o51] [o52] ["cc"; "memory"] None;
Blk X86 "core_arch_ops_gcc_x86.hpp" 424 "fetch_or" 32 32 false false [l179; l196; l199; l198; l183] [o47; o48; o51] [o52] ["cc"; "memory"] None;
Blk X86 "core_arch_ops_gcc_x86.hpp" 433 "fetch_xor" 32 32 false false [l179; l196; l200; l198; l183] [o47; o48; o51] [o52] ["cc"; "memory"] None;
Blk X86 "core_arch_ops_gcc_x86.hpp" 483 "store" 64 64 false false [l201] [o53] [o54] ["memory"] None;
Blk X86 "core_arch_ops_gcc_x86.hpp" 483 "store" 64 64 false false [l202] [o53] [o54] ["memory"] None;
Blk X86 "core_arch_ops_gcc_x86.hpp" 483 "store" 64 64 false false [l203] [o53] [o54] ["memory"] None;
Blk X86 "core_arch_ops_gcc_x86.hpp" 497 "store" 64 64 false false [l204; l205] [o53] [o55] ["memory"] None;
Blk X86 "core_arch_ops_gcc_x86.hpp" 510 "store" 64 64 false false [l206; l207; l208; l209; l179; l210; l183; l206] [] [o56; o57; o58] ["cc"; "edx"; "memory"] None;
Blk X86 "core_arch_ops_gcc_x86.hpp" 525 "store" 64 64 false false [l211; l212; l179; l213; l183] [o59; o60] [o61; o57] ["cc"; "eax"; "edx"; "memory"] None;
Blk X86 "core_arch_ops_gcc_x86.hpp" 548 "load" 64 64 false false [l214] [o62] [o63] ["memory"] None;
Blk X86 "core_arch_ops_gcc_x86.hpp" 548 "load" 64 64 false false [l215] [o62] [o63] ["memory"] None;
Blk X86 "core_arch_ops_gcc_x86.hpp" 548 "load" 64 64 false false [l216; l217] [o62] [o63] ["memory"] None;
Blk X86 "core_arch_ops_gcc_x86.hpp" 569 "load" 64 64 false false [l218; l219] [o64] [o63] ["memory"] None;
Blk X86 "core_arch_ops_gcc_x86.hpp" 590 "load" 64 64 false false [l220; l221; l222] [o65; o66] [o63] ["cc"; "memory"] None;
Blk X86 "core_arch_ops_gcc_x86.hpp" 605 "load" 64 64 false false [l220; l221; l222] [o67] [o63] ["cc"; "memory"] None;
Blk X86 "core_arch_ops_gcc_x86.hpp" 640 "compare_exchange_strong" 64 64 false false [l206; l223; l206] [o68; o69] [o70; o71; o58] ["cc"; "memory"] None;
Blk X86 "core_arch_ops_gcc_x86.hpp" 650 "compare_exchange_strong" 64 64 false false [l206; l223; l206; l224] [o68; o72] [o70; o71; o58] ["cc"; "memory"] None;
Blk X86 "core_arch_ops_gcc_x86.hpp" 669 "compare_exchange_strong" 64 64 false false [l225] [o68; o73; o69] [o74; o71] ["cc"; "memory"] None;
Blk X86 "core_arch_ops_gcc_x86.hpp" 677 "compare_exchange_strong" 64 64 false false [l225; l224] [o68; o73; o72] [o74; o71] ["cc"; "memory"] None;
Blk X86 "core_arch_ops_gcc_x86.hpp" 710 "exchange" 64 64 false false [l206; l208; l209; l179; l210; l183; l206] [o75; o76] [o77; o57; o58] ["cc"; "memory"] None;
Blk X86 "core_arch_ops_gcc_x86.hpp" 728 "exchange" 64 64 false false [l206; l208; l209; l179; l210; l183; l206] [o78] [o77; o57; o58] ["cc"; "memory"] None;
Blk X86 "core_arch_ops_gcc_x86.hpp" 748 "exchange" 64 64 false false [l208; l209; l179; l210; l183] [o79; o80] [o81; o57; o82] ["cc"; "memory"] None;
Blk X86 "core_arch_ops_gcc_x86.hpp" 765 "exchange" 64 64 false false [l211; l212; l179; l213; l183] [o79; o80; o83; o84] [o81; o57] ["cc"; "memory"] None;
Blk X86 "core_arch_ops_gcc_x86.hpp" 781 "exchange" 64 64 false false [l211; l212; l179; l213; l183] [o85; o83; o84] [o81; o57] ["cc"; "memory"] None;
Blk X86 "core_arch_ops_gcc_x86.hpp" 820 "fetch_add" 64 64 false false [l226] [o41; o28] [] ["cc"; "memory"] None;
Blk X86 "core_arch_ops_gcc_x86.hpp" 834 "exchange" 64 64 false false [l227] [o41; o28] [] ["memory"] None;
Blk X86 "core_arch_ops_gcc_x86.hpp" 852 "compare_exchange_strong" 64 64 false false [l228] [o43; o28; o44] [o8] ["cc"; "memory"] None;
Blk X86 "core_arch_ops_gcc_x86.hpp" 860 "compare_exchange_strong" 64 64 false false [l228; l178] [o43; o28; o46] [o8] ["cc"; "memory"] None;
Blk X86 "core_arch_ops_gcc_x86.hpp" 892 "fetch_and" 64 64 false false [l179; l229; l230; l231; l183] [o47; o48; o51] [o86] ["cc"; "memory"] None;
Blk X86 "core_arch_ops_gcc_x86.hpp" 901 "fetch_or" 64 64 false false [l179; l229; l232; l231; l183] [o47; o48; o51] [o86] ["cc"; "memory"] None;
Blk X86 "core_arch_ops_gcc_x86.hpp" 910 "fetch_xor" 64 64 false false [l179; l229; l233; l231; l183] [o47; o48; o51] [o86] ["cc"; "memory"] None;
Blk X86 "core_arch_ops_gcc_x86.hpp" 953 "store" 128 128 false false [l234] [o53] [o54] ["memory"] None;
Blk X86 "core_arch_ops_gcc_x86.hpp" 965 "store" 128 128 false false [l235; l236; l179; l237; l183] [o59; o87] [o88; o89] ["cc"; "rax"; "rdx"; "memory"] None;
Blk X86 "core_arch_ops_gcc_x86.hpp" 986 "load" 128 128 false false [l238] [o62] [o63] ["memory"] None;
Blk X86 "core_arch_ops_gcc_x86.hpp" 1017 "load" 128 128 false false [l239; l240; l241] [o90; o91] [o63] ["cc"; "memory"] None;
Blk X86 "core_arch_ops_gcc_x86.hpp" 1037 "load" 128 128 false false [l239; l240; l241] [o67] [o63] ["cc"; "memory"] None;
Blk X86 "core_arch_ops_gcc_x86.hpp" 1070 "compare_exchange_strong" 128 128 false false [l242; l224] [o73; o92; o93; o94] [o95; o96] ["cc"; "memory"] None;
Blk X86 "core_arch_ops_gcc_x86.hpp" 1084 "compare_exchange_strong" 128 128 false false [l242] [o68; o73; o44] [o95; o96] ["cc"; "memory"] None;
Blk X86 "core_arch_ops_gcc_x86.hpp" 1092 "compare_exchange_strong" 128 128 false false [l242; l224] [o68; o73; o72] [o95; o96] ["cc"; "memory"] None;
Blk X86 "core_arch_ops_gcc_x86.hpp" 1123 "exchange" 128 128 false false [l235; l236; l179; l237; l183] [o83; o97; o98; o99] [o88; o89] ["cc"; "memory"] None;
Blk X86 "core_arch_ops_gcc_x86.hpp" 1143 "exchange" 128 128 false false [l235; l236; l179; l237; l183] [o85; o83; o97] [o88; o89] ["cc"; "memory"] None;
Blk X86 "extra_ops_gcc_x86.hpp" 60 "fetch_negate" 8 8 false false [l179; l513; l514; l182; l183] [o126; o48; o127] [] ["cc"; "memory"] None;
Blk X86 "extra_ops_gcc_x86.hpp" 70 "fetch_complement" 8 8 false false [l179; l513; l515; l182; l183] [o126; o48; o127] [] ["cc"; "memory"] None;
Blk X86 "extra_ops_gcc_x86.hpp" 80 "negate" 8 8 false false [l179; l513; l514; l182; l183] [o126; o48; o127] [] ["cc"; "memory"] None;
Blk X86 "extra_ops_gcc_x86.hpp" 90 "bitwise_complement" 8 8 false false [l179; l513; l515; l182; l183] [o126; o48; o127] [] ["cc"; "memory"] None;
Blk X86 "extra_ops_gcc_x86.hpp" 115 "bitwise_and" 8 8 false false [l179; l180; l181; l182; l183] [o126; o48; o127] [o50] ["cc"; "memory"] None;
Blk X86 "extra_ops_gcc_x86.hpp" 125 "bitwise_or" 8 8 false false [l179; l180; l184; l182; l183] [o126; o48; o127] [o50] ["cc"; "memory"] None;
Blk X86 "extra_ops_gcc_x86.hpp" 135 "bitwise_xor" 8 8 false false [l179; l180; l185; l182; l183] [o126; o48; o127] [o50] ["cc"; "memory"] None;
Blk X86 "extra_ops_gcc_x86.hpp" 157 "opaque_add" 8 8 false false [l516] [o48] [] ["cc"; "memory"] None;
Blk X86 "extra_ops_gcc_x86.hpp" 167 "opaque_add" 8 8 false false [l517] [o48] [o128] ["cc"; "memory"] None;
Blk X86 "extra_ops_gcc_x86.hpp" 183 "opaque_sub" 8 8 false false [l518] [o48] [] ["cc"; "memory"] None;
Blk X86 "extra_ops_gcc_x86.hpp" 193 "opaque_sub" 8 8 false false [l519] [o48] [o128] ["cc"; "memory"] None;
Blk X86 "extra_ops_gcc_x86.hpp" 207 "opaque_negate" 8 8 false false [l520] [o48] [] ["cc"; "memory"] None;
Blk X86 "extra_ops_gcc_x86.hpp" 220 "opaque_and" 8 8 false false [l521] [o48] [o128] ["cc"; "memory"] None;
Blk X86 "extra_ops_gcc_x86.hpp" 233 "opaque_or" 8 8 false false [l522] [o48] [o128] ["cc"; "memory"] None;
Blk X86 "extra_ops_gcc_x86.hpp" 246 "opaque_xor" 8 8 false false [l523] [o48] [o128] ["cc"; "memory"] None;
Blk X86 "extra_ops_gcc_x86.hpp" 259 "opaque_complement" 8 8 false false [l524] [o48] [] ["memory"] None;
Blk X86 "extra_ops_gcc_x86.hpp" 276 "add_and_test" 8 8 false false [l516] [o48; o129] [] ["memory"] None;
Blk X86 "extra_ops_gcc_x86.hpp" 286 "add_and_test" 8 8 false false [l517] [o48; o129] [o128] ["memory"] None;
Blk X86 "extra_ops_gcc_x86.hpp" 297 "add_and_test" 8 8 false false [l516; l525] [o48; o130] [] ["cc"; "memory"] None;
Blk X86 "extra_ops_gcc_x86.hpp" 308 "add_and_test" 8 8 false false [l517; l525] [o48; o130] [o128] ["cc"; "memory"] None;
Blk X86 "extra_ops_gcc_x86.hpp" 329 "sub_and_test" 8 8 false false [l518] [o48; o129] [] ["memory"] None;
Blk X86 "extra_ops_gcc_x86.hpp" 339 "sub_and_test" 8 8 false false [l519] [o48; o129] [o128] ["memory"] None;
Blk X86 "extra_ops_gcc_x86.hpp" 350 "sub_and_test" 8 8 false false [l518; l525] [o48; o130] [] ["cc"; "memory"] None;
Blk X86 "extra_ops_gcc_x86.hpp" 361 "sub_and_test" 8 8 false false [l519; l525] [o48; o130] [o128] ["cc"; "memory"] None;
Blk X86 "extra_ops_gcc_x86.hpp" 380 "and_and_test" 8 8 false false [l521] [o48; o129] [o128] ["memory"] None;
Blk X86 "extra_ops_gcc_x86.hpp" 388 "and_and_test" 8 8 false false [l521; l525] [o48; o130] [o128] ["cc"; "memory"] None;
Blk X86 "extra_ops_gcc_x86.hpp" 406 "or_and_test" 8 8 false false [l522] [o48; o129] [o128] ["memory"] None;
Blk X86 "extra_ops_gcc_x86.hpp" 414 "or_and_test" 8 8 false false [l522; l525] [o48; o130] [o128] ["cc"; "memory"] None;
Blk X86 "extra_ops_gcc_x86.hpp" 432 "xor_and_test" 8 8 false false [l523] [o48; o129] [o128] ["memory"] None;
Blk X86 "extra_ops_gcc_x86.hpp" 440 "xor_and_test" 8 8 false false [l523; l525] [o48; o130] [o128] ["cc"; "memory"] None;
Blk X86 "extra_ops_gcc_x86.hpp" 480 "fetch_negate" 16 16 false false [l179; l526; l527; l190; l183] [o126; o48; o127] [] ["cc"; "memory"] None;
Blk X86 "extra_ops_gcc_x86.hpp" 490 "fetch_complement" 16 16 false false [l179; l526; l528; l190; l183] [o126; o48; o127] [] ["cc"; "memory"] None;
Blk X86 "extra_ops_gcc_x86.hpp" 500 "negate" 16 16 false false [l179; l526; l527; l190; l183] [o126; o48; o127] [] ["cc"; "memory"] None;
Blk X86 "extra_ops_gcc_x86.hpp" 510 "bitwise_complement" 16 16 false false [l179; l526; l528; l190; l183] [o126; o48; o127] [] ["cc"; "memory"] None;
Blk X86 "extra_ops_gcc_x86.hpp" 535 "bitwise_and" 16 16 false false [l179; l180; l189; l190; l183] [o126; o48; o127] [o50] ["cc"; "memory"] None;
Blk X86 "extra_ops_gcc_x86.hpp" 545 "bitwise_or" 16 16 false false [l179; l180; l191; l190; l183] [o126; o48; o127] [o50] ["cc"; "memory"] None;
Blk X86 "extra_ops_gcc_x86.hpp" 555 "bitwise_xor" 16 16 false false [l179; l180; l192; l190; l183] [o126; o48; o127] [o50] ["cc"; "memory"] None;
Blk X86 "extra_ops_gcc_x86.hpp" 577 "opaque_add" 16 16 false false [l529] [o48] [] ["cc"; "memory"] None;
Blk X86 "extra_ops_gcc_x86.hpp" 587 "opaque_add" 16 16 false false [l530] [o48] [o128] ["cc"; "memory"] None;
Blk X86 "extra_ops_gcc_x86.hpp" 603 "opaque_sub" 16 16 false false [l531] [o48] [] ["cc"; "memory"] None;
Blk X86 "extra_ops_gcc_x86.hpp" 613 "opaque_sub" 16 16 false false [l532] [o48] [o128] ["cc"; "memory"] None;
Blk X86 "extra_ops_gcc_x86.hpp" 627 "opaque_negate" 16 16 false false [l533] [o48] [] ["cc"; "memory"] None;
Blk X86 "extra_ops_gcc_x86.hpp" 640 "opaque_and" 16 16 false false [l534] [o48] [o128] ["cc"; "memory"] None;
Blk X86 "extra_ops_gcc_x86.hpp" 653 "opaque_or" 16 16 false false [l535] [o48] [o128] ["cc"; "memory"] None;
Blk X86 "extra_ops_gcc_x86.hpp" 666 "opaque_xor" 16 16 false false [l536] [o48] [o128] ["cc"; "memory"] None;
Blk X86 "extra_ops_gcc_x86.hpp" 679 "opaque_complement" 16 16 false false [l537] [o48] [] ["memory"] None;
Blk X86 "extra_ops_gcc_x86.hpp" 696 "add_and_test" 16 16 false false [l529] [o48; o129] [] ["memory"] None;
Blk X86 "extra_ops_gcc_x86.hpp" 706 "add_and_test" 16 16 false false [l530] [o48; o129] [o128] ["memory"] None;
Blk X86 "extra_ops_gcc_x86.hpp" 717 "add_and_test" 16 16 false false [l529; l525] [o48; o130] [] ["cc"; "memory"] None;
Blk X86 "extra_ops_gcc_x86.hpp" 728 "add_and_test" 16 16 false false [l530; l525] [o48; o130] [o128] ["cc"; "memory"] None;
Blk X86 "extra_ops_gcc_x86.hpp" 749 "sub_and_test" 16 16 false false [l531] [o48; o129] [] ["memory"] None;
Blk X86 "extra_ops_gcc_x86.hpp" 759 "sub_and_test" 16 16 false false [l532] [o48; o129] [o128] ["memory"] None;
Blk X86 "extra_ops_gcc_x86.hpp" 770 "sub_and_test" 16 16 false false [l531; l525] [o48; o130] [] ["cc"; "memory"] None;
Blk X86 "extra_ops_gcc_x86.hpp" 781 "sub_and_test" 16 16 false false [l532; l525] [o48; o130] [o128] ["cc"; "memory"] None;
Blk X86 "extra_ops_gcc_x86.hpp" 800 "and_and_test" 16 16 false false [l534] [o48; o129] [o128] ["memory"] None;
Blk X86 "extra_ops_gcc_x86.hpp" 808 "and_and_test" 16 16 false false [l534; l525] [o48; o130] [o128] ["cc"; "memory"] None;
Blk X86 "extra_ops_gcc_x86.hpp" 826 "or_and_test" 16 16 false false [l535] [o48; o129] [o128] ["memory"] None;
Blk X86 "extra_ops_gcc_x86.hpp" 834 "or_and_test" 16 16 false false [l535; l525] [o48; o130] [o128] ["cc"; "memory"] None;
Blk X86 "extra_ops_gcc_x86.hpp" 852 "xor_and_test" 16 16 false false [l536] [o48; o129] [o128] ["memory"] None;
Blk X86 "extra_ops_gcc_x86.hpp" 860 "xor_and_test" 16 16 false false [l536; l525] [o48; o130] [o128] ["cc"; "memory"] None;
Blk X86 "extra_ops_gcc_x86.hpp" 878 "bit_test_and_set" 16 16 false false [l538] [o48; o131] [o132] ["memory"] None;
Blk X86 "extra_ops_gcc_x86.hpp" 886 "bit_test_and_set" 16 16 false false [l538; l539] [o48; o130] [o132] ["cc"; "memory"] None;
Blk X86 "extra_ops_gcc_x86.hpp" 904 "bit_test_and_reset" 16 16 false false [l540] [o48; o131] [o132] ["memory"] None;
Blk X86 "extra_ops_gcc_x86.hpp" 912 "bit_test_and_reset" 16 16 false false [l540; l539] [o48; o130] [o132] ["cc"; "memory"] None;
Blk X86 "extra_ops_gcc_x86.hpp" 930 "bit_test_and_complement" 16 16 false false [l541] [o48; o131] [o132] ["memory"] None;
Blk X86 "extra_ops_gcc_x86.hpp" 938 "bit_test_and_complement" 16 16 false false [l541; l539] [o48; o130] [o132] ["cc"; "memory"] None;
Blk X86 "extra_ops_gcc_x86.hpp" 977 "fetch_negate" 32 32 false false [l179; l542; l543; l544; l183] [o126; o48; o133] [] ["cc"; "memory"] None;
Blk X86 "extra_ops_gcc_x86.hpp" 987 "fetch_complement" 32 32 false false [l179; l542; l545; l544; l183] [o126; o48; o133] [] ["cc"; "memory"] None;
Blk X86 "extra_ops_gcc_x86.hpp" 997 "negate" 32 32 false false [l179; l542; l543; l544; l183] [o126; o48; o133] [] ["cc"; "memory"] None;
Blk X86 "extra_ops_gcc_x86.hpp" 1007 "bitwise_complement" 32 32 false false [l179; l542; l545; l544; l183] [o126; o48; o133] [] ["cc"; "memory"] None;
Blk X86 "extra_ops_gcc_x86.hpp" 1032 "bitwise_and" 32 32 false false [l179; l546; l547; l544; l183] [o126; o48; o133] [o52] ["cc"; "memory"] None;
Blk X86 "extra_ops_gcc_x86.hpp" 1042 "bitwise_or" 32 32 false false [l179; l546; l548; l544; l183] [o126; o48; o133] [o52] ["cc"; "memory"] None;
Blk X86 "extra_ops_gcc_x86.hpp" 1052 "bitwise_xor" 32 32 false false [l179; l546; l549; l544; l183] [o126; o48; o133] [o52] ["cc"; "memory"] None;
Blk X86 "extra_ops_gcc_x86.hpp" 1074 "opaque_add" 32 32 false false [l550] [o48] [] ["cc"; "memory"] None;
Blk X86 "extra_ops_gcc_x86.hpp" 1084 "opaque_add" 32 32 false false [l551] [o48] [o134] ["cc"; "memory"] None;
Blk X86 "extra_ops_gcc_x86.hpp" 1100 "opaque_sub" 32 32 false false [l552] [o48] [] ["cc"; "memory"] None;
Blk X86 "extra_ops_gcc_x86.hpp" 1110 "opaque_sub" 32 32 false false [l553] [o48] [o134] ["cc"; "memory"] None;
Blk X86 "extra_ops_gcc_x86.hpp" 1124 "opaque_negate" 32 32 false false [l554] [o48] [] ["cc"; "memory"] None;
Blk X86 "extra_ops_gcc_x86.hpp" 1137 "opaque_and" 32 32 false false [l555] [o48] [o134] ["cc"; "memory"] None;
Blk X86 "extra_ops_gcc_x86.hpp" 1150 "opaque_or" 32 32 false false [l556] [o48] [o134] ["cc"; "memory"] None;
Blk X86 "extra_ops_gcc_x86.hpp" 1163 "opaque_xor" 32 32 false false [l557] [o48] [o134] ["cc"; "memory"] None;
Blk X86 "extra_ops_gcc_x86.hpp" 1176 "opaque_complement" 32 32 false false [l558] [o48] [] ["memory"] None;
Blk X86 "extra_ops_gcc_x86.hpp" 1193 "add_and_test" 32 32 false false [l550] [o48; o129] [] ["memory"] None;
Blk X86 "extra_ops_gcc_x86.hpp" 1203 "add_and_test" 32 32 false false [l551] [o48; o129] [o134] ["memory"] None;
Blk X86 "extra_ops_gcc_x86.hpp" 1214 "add_and_test" 32 32 false false [l550; l525] [o48; o130] [] ["cc"; "memory"] None;
Blk X86 "extra_ops_gcc_x86.hpp" 1225 "add_and_test" 32 32 false false [l551; l525] [o48; o130] [o134] ["cc"; "memory"] None;
Blk X86 "extra_ops_gcc_x86.hpp" 1246 "sub_and_test" 32 32 false false [l552] [o48; o129] [] ["memory"] None;
Blk X86 "extra_ops_gcc_x86.hpp" 1256 "sub_and_test" 32 32 false false [l553] [o48; o129] [o134] ["memory"] None;
Blk X86 "extra_ops_gcc_x86.hpp" 1267 "sub_and_test" 32 32 false false [l552; l525] [o48; o130] [] ["cc"; "memory"] None;
Blk X86 "extra_ops_gcc_x86.hpp" 1278 "sub_and_test" 32 32 false false [l553; l525] [o48; o130] [o134] ["cc"; "memory"] None;
Blk X86 "extra_ops_gcc_x86.hpp" 1297 "and_and_test" 32 32 false false [l555] [o48; o129] [o134] ["memory"] None;
Blk X86 "extra_ops_gcc_x86.hpp" 1305 "and_and_test" 32 32 false false [l555; l525] [o48; o130] [o134] ["cc"; "memory"] None;
Blk X86 "extra_ops_gcc_x86.hpp" 1323 "or_and_test" 32 32 false false [l556] [o48; o129] [o134] ["memory"] None;
Blk X86 "extra_ops_gcc_x86.hpp" 1331 "or_and_test" 32 32 false false [l556; l525] [o48; o130] [o134] ["cc"; "memory"] None;
Blk X86 "extra_ops_gcc_x86.hpp" 1349 "xor_and_test" 32 32 false false [l557] [o48; o129] [o134] ["memory"] None;
Blk X86 "extra_ops_gcc_x86.hpp" 1357 "xor_and_test" 32 32 false false [l557; l525] [o48; o130] [o134] ["cc"; "memory"] None;
Blk X86 "extra_ops_gcc_x86.hpp" 1375 "bit_test_and_set" 32 32 false false [l559] [o48; o131] [o135] ["memory"] None;
Blk X86 "extra_ops_gcc_x86.hpp" 1383 "bit_test_and_set" 32 32 false false [l559; l539] [o48; o130] [o135] ["cc"; "memory"] None;
Blk X86 "extra_ops_gcc_x86.hpp" 1401 "bit_test_and_reset" 32 32 false false [l560] [o48; o131] [o135] ["memory"] None;
Blk X86 "extra_ops_gcc_x86.hpp" 1409 "bit_test_and_reset" 32 32 false false [l560; l539] [o48; o130] [o135] ["cc"; "memory"] None;
Blk X86 "extra_ops_gcc_x86.hpp" 1427 "bit_test_and_complement" 32 32 false false [l561] [o48; o131] [o135] ["memory"] None;
Blk X86 "extra_ops_gcc_x86.hpp" 1435 "bit_test_and_complement" 32 32 false false [l561; l539] [o48; o130] [o135] ["cc"; "memory"] None;
Blk X86 "extra_ops_gcc_x86.hpp" 1476 "fetch_negate" 64 64 false false [l179; l542; l562; l563; l183] [o126; o48; o133] [] ["cc"; "memory"] None;
Blk X86 "extra_ops_gcc_x86.hpp" 1486 "fetch_complement" 64 64 false false [l179; l542; l564; l563; l183] [o126; o48; o133] [] ["cc"; "memory"] None;
Blk X86 "extra_ops_gcc_x86.hpp" 1496 "negate" 64 64 false false [l179; l542; l562; l563; l183] [o126; o48; o133] [] ["cc"; "memory"] None;
Blk X86 "extra_ops_gcc_x86.hpp" 1506 "bitwise_complement" 64 64 false false [l179; l542; l564; l563; l183] [o126; o48; o133] [] ["cc"; "memory"] None;
Blk X86 "extra_ops_gcc_x86.hpp" 1531 "bitwise_and" 64 64 false false [l179; l546; l565; l563; l183] [o126; o48; o133] [o86] ["cc"; "memory"] None;
Blk X86 "extra_ops_gcc_x86.hpp" 1541 "bitwise_or" 64 64 false false [l179; l546; l566; l563; l183] [o126; o48; o133] [o86] ["cc"; "memory"] None;
Blk X86 "extra_ops_gcc_x86.hpp" 1551 "bitwise_xor" 64 64 false false [l179; l546; l567; l563; l183] [o126; o48; o133] [o86] ["cc"; "memory"] None;
Blk X86 "extra_ops_gcc_x86.hpp" 1573 "opaque_add" 64 64 false false [l568] [o48] [] ["cc"; "memory"] None;
Blk X86 "extra_ops_gcc_x86.hpp" 1583 "opaque_add" 64 64 false false [l569] [o48] [o136] ["cc"; "memory"] None;
Blk X86 "extra_ops_gcc_x86.hpp" 1599 "opaque_sub" 64 64 false false [l570] [o48] [] ["cc"; "memory"] None;
Blk X86 "extra_ops_gcc_x86.hpp" 1609 "opaque_sub" 64 64 false false [l571] [o48] [o136] ["cc"; "memory"] None;
Blk X86 "extra_ops_gcc_x86.hpp" 1623 "opaque_negate" 64 64 false false [l572] [o48] [] ["cc"; "memory"] None;
Blk X86 "extra_ops_gcc_x86.hpp" 1636 "opaque_and" 64 64 false false [l573] [o48] [o136] ["cc"; "memory"] None;
Blk X86 "extra_ops_gcc_x86.hpp" 1649 "opaque_or" 64 64 false false [l574] [o48] [o136] ["cc"; "memory"] None;
Blk X86 "extra_ops_gcc_x86.hpp" 1662 "opaque_xor" 64 64 false false [l575] [o48] [o136] ["cc"; "memory"] None;
Blk X86 "extra_ops_gcc_x86.hpp" 1675 "opaque_complement" 64 64 false false [l576] [o48] [] ["memory"] None;
Blk X86 "extra_ops_gcc_x86.hpp" 1692 "add_and_test" 64 64 false false [l568] [o48; o129] [] ["memory"] None;
Blk X86 "extra_ops_gcc_x86.hpp" 1702 "add_and_test" 64 64 false false [l569] [o48; o129] [o136] ["memory"] None;
Blk X86 "extra_ops_gcc_x86.hpp" 1713 "add_and_test" 64 64 false false [l568; l525] [o48; o130] [] ["cc"; "memory"] None;
Blk X86 "extra_ops_gcc_x86.hpp" 1724 "add_and_test" 64 64 false false [l569; l525] [o48; o130] [o136] ["cc"; "memory"] None;
Blk X86 "extra_ops_gcc_x86.hpp" 1745 "sub_and_test" 64 64 false false [l570] [o48; o129] [] ["memory"] None;
Blk X86 "extra_ops_gcc_x86.hpp" 1755 "sub_and_test" 64 64 false false [l571] [o48; o129] [o136] ["memory"] None;
Blk X86 "extra_ops_gcc_x86.hpp" 1766 "sub_and_test" 64 64 false false [l570; l525] [o48; o130] [] ["cc"; "memory"] None;
Blk X86 "extra_ops_gcc_x86.hpp" 1777 "sub_and_test" 64 64 false false [l571; l525] [o48; o130] [o136] ["cc"; "memory"] None;
Blk X86 "extra_ops_gcc_x86.hpp" 1796 "and_and_test" 64 64 false false [l573] [o48; o129] [o136] ["memory"] None;
Blk X86 "extra_ops_gcc_x86.hpp" 1804 "and_and_test" 64 64 false false [l573; l525] [o48; o130] [o136] ["cc"; "memory"] None;
Blk X86 "extra_ops_gcc_x86.hpp" 1822 "or_and_test" 64 64 false false [l574] [o48; o129] [o136] ["memory"] None;
Blk X86 "extra_ops_gcc_x86.hpp" 1830 "or_and_test" 64 64 false false [l574; l525] [o48; o130] [o136] ["cc"; "memory"] None;
Blk X86 "extra_ops_gcc_x86.hpp" 1848 "xor_and_test" 64 64 false false [l575] [o48; o129] [o136] ["memory"] None;
Blk X86 "extra_ops_gcc_x86.hpp" 1856 "xor_and_test" 64 64 false false [l575; l525] [o48; o130] [o136] ["cc"; "memory"] None;
Blk X86 "extra_ops_gcc_x86.hpp" 1874 "bit_test_and_set" 64 64 false false [l577] [o48; o131] [o137] ["memory"] None;
Blk X86 "extra_ops_gcc_x86.hpp" 1882 "bit_test_and_set" 64 64 false false [l577; l539] [o48; o130] [o137] ["cc"; "memory"] None;
Blk X86 "extra_ops_gcc_x86.hpp" 1900 "bit_test_and_reset" 64 64 false false [l578] [o48; o131] [o137] ["memory"] None;
Blk X86 "extra_ops_gcc_x86.hpp" 1908 "bit_test_and_reset" 64 64 false false [l578; l539] [o48; o130] [o137] ["cc"; "memory"] None;
Blk X86 "extra_ops_gcc_x86.hpp" 1926 "bit_test_and_complement" 64 64 false false [l579] [o48; o131] [o137] ["memory"] None;
Blk X86 "extra_ops_gcc_x86.hpp" 1934 "bit_test_and_complement" 64 64 false false [l579; l539] [o48; o130] [o137] ["cc"; "memory"] None].

Definition blocks : list block := blocks_alpha ++ blocks_powerpc ++ blocks_arm ++ blocks_aarch32 ++ blocks_aarch64 ++ blocks_sparc ++ blocks_x86.

(** the asm statements of the fence functions: ops_gcc_ppc_common.hpp and fence_arch_ops_gcc_*.hpp *)
Definition fences : list block := [
Blk PowerPC "ops_gcc_ppc_common.hpp" 51 "fence_before" 0 0 false false [l116] [] [] ["memory"] None;
Blk PowerPC "ops_gcc_ppc_common.hpp" 53 "fence_before" 0 0 false false [l673] [] [] ["memory"] None;
Blk PowerPC "ops_gcc_ppc_common.hpp" 56 "fence_before" 0 0 false false [l116] [] [] ["memory"] None;
Blk PowerPC "ops_gcc_ppc_common.hpp" 63 "fence_after" 0 0 false false [l120] [] [] ["memory"] None;
Blk Alpha "fence_arch_ops_gcc_alpha.hpp" 35 "thread_fence" 0 0 false false [l0] [] [] ["memory"] None;
Blk Alpha "fence_arch_ops_gcc_alpha.hpp" 41 "signal_fence" 0 0 false false [] [] [] ["memory"] None;
Blk Arm "fence_arch_ops_gcc_arm.hpp" 44 "signal_fence" 0 0 false false [] [] [] ["memory"] None;
Blk Arm "fence_arch_ops_gcc_arm.hpp" 56 "hardware_full_fence" 0 0 false false [l674] [] [] ["memory"] None;
Blk Arm "fence_arch_ops_gcc_arm.hpp" 56 "hardware_full_fence" 0 0 false false [l675] [] [] ["memory"] None;
Blk Arm "fence_arch_ops_gcc_arm.hpp" 69 "hardware_full_fence" 0 0 false false [l676] [o23] [] ["memory"] None;
Blk PowerPC "fence_arch_ops_gcc_ppc.hpp" 38 "thread_fence" 0 0 false false [l673] [] [] ["memory"] None;
Blk PowerPC "fence_arch_ops_gcc_ppc.hpp" 40 "thread_fence" 0 0 false false [l116] [] [] ["memory"] None;
Blk PowerPC "fence_arch_ops_gcc_ppc.hpp" 42 "thread_fence" 0 0 false false [l116] [] [] ["memory"] None;
Blk PowerPC "fence_arch_ops_gcc_ppc.hpp" 54 "signal_fence" 0 0 false false [] [] [] ["memory"] None;
Blk Sparc "fence_arch_ops_gcc_sparc.hpp" 37 "thread_fence" 0 0 false false [l171] [] [] ["memory"] None;
Blk Sparc "fence_arch_ops_gcc_sparc.hpp" 41 "thread_fence" 0 0 false false [l677] [] [] ["memory"] None;
Blk Sparc "fence_arch_ops_gcc_sparc.hpp" 44 "thread_fence" 0 0 false false [l678] [] [] ["memory"] None;
Blk Sparc "fence_arch_ops_gcc_sparc.hpp" 47 "thread_fence" 0 0 false false [l170] [] [] ["memory"] None;
Blk Sparc "fence_arch_ops_gcc_sparc.hpp" 58 "signal_fence" 0 0 false false [] [] [] ["memory"] None;
Blk X86 "fence_arch_ops_gcc_x86.hpp" 46 "thread_fence" 0 0 false false [l679] [o138] [] ["memory"] None;
Blk X86 "fence_arch_ops_gcc_x86.hpp" 50 "thread_fence" 0 0 false false [] [] [] ["memory"] None;
Blk X86 "fence_arch_ops_gcc_x86.hpp" 57 "signal_fence" 0 0 false false [] [] [] ["memory"] None;
Blk AArch32 "fence_arch_ops_gcc_aarch32.hpp" 38 "thread_fence" 0 0 false false [l680] [] [] ["memory"] None;
Blk AArch32 "fence_arch_ops_gcc_aarch32.hpp" 40 "thread_fence" 0 0 false false [l681] [] [] ["memory"] None;
Blk AArch32 "fence_arch_ops_gcc_aarch32.hpp" 47 "signal_fence" 0 0 false false [] [] [] ["memory"] None;
Blk AArch64 "fence_arch_ops_gcc_aarch64.hpp" 37 "thread_fence" 0 0 false false [l680] [] [] ["memory"] None;
Blk AArch64 "fence_arch_ops_gcc_aarch64.hpp" 39 "thread_fence" 0 0 false false [l681] [] [] ["memory"] None;
Blk AArch64 "fence_arch_ops_gcc_aarch64.hpp" 46 "signal_fence" 0 0 false false [] [] [] ["memory"] None].
