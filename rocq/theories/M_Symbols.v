(** Generated from crates/mathml-renderer/src/symbol.rs: the symbol constants that the modelled
    code mentions, with the line of each. *)
From Verif Require Import Str M_SuperChar M_Token.

(** symbol.rs:265 *)
Definition SYM_EXCLAMATION_MARK : ord_like := mkOrd 33 OcDE false.
(** symbol.rs:267 *)
Definition SYM_NUMBER_SIGN : N := 35.
(** symbol.rs:268 *)
Definition SYM_DOLLAR_SIGN : N := 36.
(** symbol.rs:269 *)
Definition SYM_PERCENT_SIGN : N := 37.
(** symbol.rs:270 *)
Definition SYM_AMPERSAND : ord_like := mkOrd 38 OcE false.
(** symbol.rs:272 *)
Definition SYM_LEFT_PARENTHESIS : ord_like := mkOrd 40 OcF false.
(** symbol.rs:273 *)
Definition SYM_RIGHT_PARENTHESIS : ord_like := mkOrd 41 OcG false.
(** symbol.rs:275 *)
Definition SYM_PLUS_SIGN : bin := mkBin 43 BcBD false.
(** symbol.rs:276 *)
Definition SYM_COMMA : N := 44.
(** symbol.rs:277 *)
Definition SYM_FULL_STOP : op := mkOp 46 PcC false.
(** symbol.rs:278 *)
Definition SYM_SOLIDUS : ord_like := mkOrd 47 OcKButUsedToBeB false.
(** symbol.rs:280 *)
Definition SYM_COLON : N := 58.
(** symbol.rs:281 *)
Definition SYM_SEMICOLON : N := 59.
(** symbol.rs:282 *)
Definition SYM_LESS_THAN_SIGN : rel := mkRel 60 RcDefault false.
(** symbol.rs:283 *)
Definition SYM_EQUALS_SIGN : rel := mkRel 61 RcDefault false.
(** symbol.rs:284 *)
Definition SYM_GREATER_THAN_SIGN : rel := mkRel 62 RcDefault false.
(** symbol.rs:288 *)
Definition SYM_LEFT_SQUARE_BRACKET : ord_like := mkOrd 91 OcF false.
(** symbol.rs:289 *)
Definition SYM_REVERSE_SOLIDUS : ord_like := mkOrd 92 OcK false.
(** symbol.rs:290 *)
Definition SYM_RIGHT_SQUARE_BRACKET : ord_like := mkOrd 93 OcG false.
(** symbol.rs:292 *)
Definition SYM_LOW_LINE : ord_like := mkOrd 95 OcIK false.
(** symbol.rs:293 *)
Definition SYM_GRAVE_ACCENT : N := 96.
(** symbol.rs:295 *)
Definition SYM_LEFT_CURLY_BRACKET : ord_like := mkOrd 123 OcF false.
(** symbol.rs:296 *)
Definition SYM_VERTICAL_LINE : ord_like := mkOrd 124 OcFGandForceDefault false.
(** symbol.rs:297 *)
Definition SYM_RIGHT_CURLY_BRACKET : ord_like := mkOrd 125 OcG false.
(** symbol.rs:298 *)
Definition SYM_TILDE : ord_like := mkOrd 126 OcI false.
(** symbol.rs:303 *)
Definition SYM_NO_BREAK_SPACE : N := 160.
(** symbol.rs:306 *)
Definition SYM_POUND_SIGN : N := 163.
(** symbol.rs:308 *)
Definition SYM_YEN_SIGN : N := 165.
(** symbol.rs:310 *)
Definition SYM_SECTION_SIGN : N := 167.
(** symbol.rs:311 *)
Definition SYM_DIAERESIS : N := 168.
(** symbol.rs:312 *)
Definition SYM_COPYRIGHT_SIGN : N := 169.
(** symbol.rs:314 *)
Definition SYM_NOT_SIGN : ord_like := mkOrd 172 OcD false.
(** symbol.rs:315 *)
Definition SYM_DEGREE_SIGN : N := 176.
(** symbol.rs:317 *)
Definition SYM_MACRON : N := 175.
(** symbol.rs:319 *)
Definition SYM_PLUS_MINUS_SIGN : bin := mkBin 177 BcBD false.
(** symbol.rs:321 *)
Definition SYM_ACUTE_ACCENT : N := 180.
(** symbol.rs:323 *)
Definition SYM_PILCROW_SIGN : N := 182.
(** symbol.rs:324 *)
Definition SYM_MIDDLE_DOT : op := mkOp 183 PcC false.
(** symbol.rs:326 *)
Definition SYM_MULTIPLICATION_SIGN : op := mkOp 215 PcC false.
(** symbol.rs:328 *)
Definition SYM_LATIN_SMALL_LETTER_ETH : N := 240.
(** symbol.rs:330 *)
Definition SYM_DIVISION_SIGN : bin := mkBin 247 BcB false.
(** symbol.rs:335 *)
Definition SYM_LATIN_SMALL_LETTER_DOTLESS_I : N := 0x131.
(** symbol.rs:340 *)
Definition SYM_LATIN_SMALL_LETTER_DOTLESS_J : N := 0x237.
(** symbol.rs:345 *)
Definition SYM_MODIFIER_LETTER_CIRCUMFLEX_ACCENT : N := 0x2c6.
(** symbol.rs:346 *)
Definition SYM_CARON : N := 0x2c7.
(** symbol.rs:348 *)
Definition SYM_BREVE : N := 0x2d8.
(** symbol.rs:349 *)
Definition SYM_DOT_ABOVE : N := 0x2d9.
(** symbol.rs:350 *)
Definition SYM_RING_ABOVE : N := 0x2da.
(** symbol.rs:352 *)
Definition SYM_SMALL_TILDE : N := 0x2dc.
(** symbol.rs:357 *)
Definition SYM_COMBINING_GRAVE_ACCENT : N := 0x300.
(** symbol.rs:358 *)
Definition SYM_COMBINING_ACUTE_ACCENT : N := 0x301.
(** symbol.rs:359 *)
Definition SYM_COMBINING_CIRCUMFLEX_ACCENT : N := 0x302.
(** symbol.rs:360 *)
Definition SYM_COMBINING_TILDE : N := 0x303.
(** symbol.rs:361 *)
Definition SYM_COMBINING_MACRON : N := 0x304.
(** symbol.rs:363 *)
Definition SYM_COMBINING_BREVE : N := 0x306.
(** symbol.rs:364 *)
Definition SYM_COMBINING_DOT_ABOVE : N := 0x307.
(** symbol.rs:365 *)
Definition SYM_COMBINING_DIAERESIS : N := 0x308.
(** symbol.rs:367 *)
Definition SYM_COMBINING_RING_ABOVE : N := 0x30a.
(** symbol.rs:368 *)
Definition SYM_COMBINING_DOUBLE_ACUTE_ACCENT : N := 0x30b.
(** symbol.rs:369 *)
Definition SYM_COMBINING_CARON : N := 0x30c.
(** symbol.rs:371 *)
Definition SYM_COMBINING_CEDILLA : N := 0x327.
(** symbol.rs:373 *)
Definition SYM_COMBINING_LOW_LINE : N := 0x332.
(** symbol.rs:380 *)
Definition SYM_GREEK_CAPITAL_LETTER_ALPHA : N := 0x391.
(** symbol.rs:381 *)
Definition SYM_GREEK_CAPITAL_LETTER_BETA : N := 0x392.
(** symbol.rs:382 *)
Definition SYM_GREEK_CAPITAL_LETTER_GAMMA : N := 0x393.
(** symbol.rs:383 *)
Definition SYM_GREEK_CAPITAL_LETTER_DELTA : N := 0x394.
(** symbol.rs:384 *)
Definition SYM_GREEK_CAPITAL_LETTER_EPSILON : N := 0x395.
(** symbol.rs:385 *)
Definition SYM_GREEK_CAPITAL_LETTER_ZETA : N := 0x396.
(** symbol.rs:386 *)
Definition SYM_GREEK_CAPITAL_LETTER_ETA : N := 0x397.
(** symbol.rs:387 *)
Definition SYM_GREEK_CAPITAL_LETTER_THETA : N := 0x398.
(** symbol.rs:388 *)
Definition SYM_GREEK_CAPITAL_LETTER_IOTA : N := 0x399.
(** symbol.rs:389 *)
Definition SYM_GREEK_CAPITAL_LETTER_KAPPA : N := 0x39a.
(** symbol.rs:390 *)
Definition SYM_GREEK_CAPITAL_LETTER_LAMBDA : N := 0x39b.
(** symbol.rs:391 *)
Definition SYM_GREEK_CAPITAL_LETTER_MU : N := 0x39c.
(** symbol.rs:392 *)
Definition SYM_GREEK_CAPITAL_LETTER_NU : N := 0x39d.
(** symbol.rs:393 *)
Definition SYM_GREEK_CAPITAL_LETTER_XI : N := 0x39e.
(** symbol.rs:394 *)
Definition SYM_GREEK_CAPITAL_LETTER_OMICRON : N := 0x39f.
(** symbol.rs:395 *)
Definition SYM_GREEK_CAPITAL_LETTER_PI : N := 0x3a0.
(** symbol.rs:396 *)
Definition SYM_GREEK_CAPITAL_LETTER_RHO : N := 0x3a1.
(** symbol.rs:397 *)
Definition SYM_GREEK_CAPITAL_LETTER_SIGMA : N := 0x3a3.
(** symbol.rs:398 *)
Definition SYM_GREEK_CAPITAL_LETTER_TAU : N := 0x3a4.
(** symbol.rs:399 *)
Definition SYM_GREEK_CAPITAL_LETTER_UPSILON : N := 0x3a5.
(** symbol.rs:400 *)
Definition SYM_GREEK_CAPITAL_LETTER_PHI : N := 0x3a6.
(** symbol.rs:401 *)
Definition SYM_GREEK_CAPITAL_LETTER_CHI : N := 0x3a7.
(** symbol.rs:402 *)
Definition SYM_GREEK_CAPITAL_LETTER_PSI : N := 0x3a8.
(** symbol.rs:403 *)
Definition SYM_GREEK_CAPITAL_LETTER_OMEGA : N := 0x3a9.
(** symbol.rs:405 *)
Definition SYM_GREEK_SMALL_LETTER_ALPHA : N := 0x3b1.
(** symbol.rs:406 *)
Definition SYM_GREEK_SMALL_LETTER_BETA : N := 0x3b2.
(** symbol.rs:407 *)
Definition SYM_GREEK_SMALL_LETTER_GAMMA : N := 0x3b3.
(** symbol.rs:408 *)
Definition SYM_GREEK_SMALL_LETTER_DELTA : N := 0x3b4.
(** symbol.rs:409 *)
Definition SYM_GREEK_SMALL_LETTER_EPSILON : N := 0x3b5.
(** symbol.rs:410 *)
Definition SYM_GREEK_SMALL_LETTER_ZETA : N := 0x3b6.
(** symbol.rs:411 *)
Definition SYM_GREEK_SMALL_LETTER_ETA : N := 0x3b7.
(** symbol.rs:412 *)
Definition SYM_GREEK_SMALL_LETTER_THETA : N := 0x3b8.
(** symbol.rs:413 *)
Definition SYM_GREEK_SMALL_LETTER_IOTA : N := 0x3b9.
(** symbol.rs:414 *)
Definition SYM_GREEK_SMALL_LETTER_KAPPA : N := 0x3ba.
(** symbol.rs:415 *)
Definition SYM_GREEK_SMALL_LETTER_LAMBDA : N := 0x3bb.
(** symbol.rs:416 *)
Definition SYM_GREEK_SMALL_LETTER_MU : N := 0x3bc.
(** symbol.rs:417 *)
Definition SYM_GREEK_SMALL_LETTER_NU : N := 0x3bd.
(** symbol.rs:418 *)
Definition SYM_GREEK_SMALL_LETTER_XI : N := 0x3be.
(** symbol.rs:419 *)
Definition SYM_GREEK_SMALL_LETTER_OMICRON : N := 0x3bf.
(** symbol.rs:420 *)
Definition SYM_GREEK_SMALL_LETTER_PI : N := 0x3c0.
(** symbol.rs:421 *)
Definition SYM_GREEK_SMALL_LETTER_RHO : N := 0x3c1.
(** symbol.rs:422 *)
Definition SYM_GREEK_SMALL_LETTER_FINAL_SIGMA : N := 0x3c2.
(** symbol.rs:423 *)
Definition SYM_GREEK_SMALL_LETTER_SIGMA : N := 0x3c3.
(** symbol.rs:424 *)
Definition SYM_GREEK_SMALL_LETTER_TAU : N := 0x3c4.
(** symbol.rs:425 *)
Definition SYM_GREEK_SMALL_LETTER_UPSILON : N := 0x3c5.
(** symbol.rs:426 *)
Definition SYM_GREEK_SMALL_LETTER_PHI : N := 0x3c6.
(** symbol.rs:427 *)
Definition SYM_GREEK_SMALL_LETTER_CHI : N := 0x3c7.
(** symbol.rs:428 *)
Definition SYM_GREEK_SMALL_LETTER_PSI : N := 0x3c8.
(** symbol.rs:429 *)
Definition SYM_GREEK_SMALL_LETTER_OMEGA : N := 0x3c9.
(** symbol.rs:431 *)
Definition SYM_GREEK_THETA_SYMBOL : N := 0x3d1.
(** symbol.rs:434 *)
Definition SYM_GREEK_PHI_SYMBOL : N := 0x3d5.
(** symbol.rs:435 *)
Definition SYM_GREEK_PI_SYMBOL : N := 0x3d6.
(** symbol.rs:438 *)
Definition SYM_GREEK_SMALL_LETTER_DIGAMMA : N := 0x3dd.
(** symbol.rs:440 *)
Definition SYM_GREEK_KAPPA_SYMBOL : N := 0x3f0.
(** symbol.rs:441 *)
Definition SYM_GREEK_RHO_SYMBOL : N := 0x3f1.
(** symbol.rs:445 *)
Definition SYM_GREEK_LUNATE_EPSILON_SYMBOL : N := 0x3f5.
(** symbol.rs:446 *)
Definition SYM_GREEK_REVERSED_LUNATE_EPSILON_SYMBOL : N := 0x3f6.
(** symbol.rs:452 *)
Definition SYM_EN_SPACE : N := 0x2002.
(** symbol.rs:453 *)
Definition SYM_EM_SPACE : N := 0x2003.
(** symbol.rs:454 *)
Definition SYM_THREE_PER_EM_SPACE : N := 0x2004.
(** symbol.rs:455 *)
Definition SYM_THIN_SPACE : N := 0x2009.
(** symbol.rs:457 *)
Definition SYM_DOUBLE_VERTICAL_LINE : ord_like := mkOrd 0x2016 OcFGandForceDefault false.
(** symbol.rs:460 *)
Definition SYM_LEFT_SINGLE_QUOTATION_MARK : N := 0x2018.
(** symbol.rs:461 *)
Definition SYM_RIGHT_SINGLE_QUOTATION_MARK : N := 0x2019.
(** symbol.rs:465 *)
Definition SYM_RIGHT_DOUBLE_QUOTATION_MARK : N := 0x201d.
(** symbol.rs:469 *)
Definition SYM_DAGGER : superchar := sc_from_char 0x2020.
(** symbol.rs:470 *)
Definition SYM_DOUBLE_DAGGER : superchar := sc_from_char 0x2021.
(** symbol.rs:471 *)
Definition SYM_BULLET : superchar := sc_from_char 0x2022.
(** symbol.rs:472 *)
Definition SYM_HORIZONTAL_ELLIPSIS : N := 0x2026.
(** symbol.rs:474 *)
Definition SYM_PRIME : ord_like := mkOrd 0x2032 OcE false.
(** symbol.rs:475 *)
Definition SYM_DOUBLE_PRIME : ord_like := mkOrd 0x2033 OcE false.
(** symbol.rs:476 *)
Definition SYM_TRIPLE_PRIME : ord_like := mkOrd 0x2034 OcE false.
(** symbol.rs:477 *)
Definition SYM_REVERSED_PRIME : ord_like := mkOrd 0x2035 OcE false.
(** symbol.rs:478 *)
Definition SYM_REVERSED_DOUBLE_PRIME : ord_like := mkOrd 0x2036 OcE false.
(** symbol.rs:479 *)
Definition SYM_REVERSED_TRIPLE_PRIME : ord_like := mkOrd 0x2037 OcE false.
(** symbol.rs:491 *)
Definition SYM_CHARACTER_TIE : superchar := sc_from_char 0x2040.
(** symbol.rs:492 *)
Definition SYM_FRACTION_SLASH : bin := mkBin 0x2044 BcB false.
(** symbol.rs:494 *)
Definition SYM_QUADRUPLE_PRIME : ord_like := mkOrd 0x2057 OcE false.
(** symbol.rs:496 *)
Definition SYM_MEDIUM_MATHEMATICAL_SPACE : N := 0x205f.
(** symbol.rs:498 *)
Definition SYM_INVISIBLE_SEPARATOR : ord_like := mkOrd 0x2063 OcK false.
(** symbol.rs:505 *)
Definition SYM_COMBINING_RIGHT_ARROW_ABOVE : N := 0x20d7.
(** symbol.rs:507 *)
Definition SYM_COMBINING_THREE_DOTS_ABOVE : N := 0x20db.
(** symbol.rs:508 *)
Definition SYM_COMBINING_FOUR_DOTS_ABOVE : N := 0x20dc.
(** symbol.rs:513 *)
Definition SYM_PLANCK_CONSTANT_OVER_TWO_PI : N := 0x210f.
(** symbol.rs:515 *)
Definition SYM_BLACK_LETTER_CAPITAL_I : N := 0x2111.
(** symbol.rs:517 *)
Definition SYM_SCRIPT_SMALL_L : N := 0x2113.
(** symbol.rs:519 *)
Definition SYM_DOUBLE_STRUCK_CAPITAL_C : N := 0x2102.
(** symbol.rs:521 *)
Definition SYM_DOUBLE_STRUCK_CAPITAL_N : N := 0x2115.
(** symbol.rs:523 *)
Definition SYM_SCRIPT_CAPITAL_P : N := 0x2118.
(** symbol.rs:525 *)
Definition SYM_BLACK_LETTER_CAPITAL_R : N := 0x211c.
(** symbol.rs:526 *)
Definition SYM_DOUBLE_STRUCK_CAPITAL_R : N := 0x211d.
(** symbol.rs:528 *)
Definition SYM_DOUBLE_STRUCK_CAPITAL_Z : N := 0x2124.
(** symbol.rs:530 *)
Definition SYM_INVERTED_OHM_SIGN : N := 0x2127.
(** symbol.rs:532 *)
Definition SYM_TURNED_CAPITAL_F : N := 0x2132.
(** symbol.rs:534 *)
Definition SYM_ALEF_SYMBOL : N := 0x2135.
(** symbol.rs:535 *)
Definition SYM_BET_SYMBOL : N := 0x2136.
(** symbol.rs:536 *)
Definition SYM_GIMEL_SYMBOL : N := 0x2137.
(** symbol.rs:537 *)
Definition SYM_DALET_SYMBOL : N := 0x2138.
(** symbol.rs:539 *)
Definition SYM_DOUBLE_STRUCK_N_ARY_SUMMATION : superchar := sc_from_char 0x2140.
(** symbol.rs:541 *)
Definition SYM_TURNED_SANS_SERIF_CAPITAL_G : N := 0x2141.
(** symbol.rs:543 *)
Definition SYM_TURNED_AMPERSAND : superchar := sc_from_char 0x214b.
(** symbol.rs:548 *)
Definition SYM_LEFTWARDS_ARROW : rel := mkRel 0x2190 RcA false.
(** symbol.rs:549 *)
Definition SYM_UPWARDS_ARROW : rel := mkRel 0x2191 RcA false.
(** symbol.rs:550 *)
Definition SYM_RIGHTWARDS_ARROW : rel := mkRel 0x2192 RcA false.
(** symbol.rs:551 *)
Definition SYM_DOWNWARDS_ARROW : rel := mkRel 0x2193 RcA false.
(** symbol.rs:552 *)
Definition SYM_LEFT_RIGHT_ARROW : rel := mkRel 0x2194 RcA false.
(** symbol.rs:553 *)
Definition SYM_UP_DOWN_ARROW : rel := mkRel 0x2195 RcA false.
(** symbol.rs:554 *)
Definition SYM_NORTH_WEST_ARROW : rel := mkRel 0x2196 RcDefault false.
(** symbol.rs:555 *)
Definition SYM_NORTH_EAST_ARROW : rel := mkRel 0x2197 RcDefault false.
(** symbol.rs:556 *)
Definition SYM_SOUTH_EAST_ARROW : rel := mkRel 0x2198 RcDefault false.
(** symbol.rs:557 *)
Definition SYM_SOUTH_WEST_ARROW : rel := mkRel 0x2199 RcDefault false.
(** symbol.rs:558 *)
Definition SYM_LEFTWARDS_ARROW_WITH_STROKE : rel := mkRel 0x219a RcA false.
(** symbol.rs:559 *)
Definition SYM_RIGHTWARDS_ARROW_WITH_STROKE : rel := mkRel 0x219b RcA false.
(** symbol.rs:560 *)
Definition SYM_LEFTWARDS_WAVE_ARROW : rel := mkRel 0x219c RcA false.
(** symbol.rs:561 *)
Definition SYM_RIGHTWARDS_WAVE_ARROW : rel := mkRel 0x219d RcA false.
(** symbol.rs:562 *)
Definition SYM_LEFTWARDS_TWO_HEADED_ARROW : rel := mkRel 0x219e RcA false.
(** symbol.rs:563 *)
Definition SYM_UPWARDS_TWO_HEADED_ARROW : rel := mkRel 0x219f RcA false.
(** symbol.rs:564 *)
Definition SYM_RIGHTWARDS_TWO_HEADED_ARROW : rel := mkRel 0x21a0 RcA false.
(** symbol.rs:565 *)
Definition SYM_DOWNWARDS_TWO_HEADED_ARROW : rel := mkRel 0x21a1 RcA false.
(** symbol.rs:566 *)
Definition SYM_LEFTWARDS_ARROW_WITH_TAIL : rel := mkRel 0x21a2 RcA false.
(** symbol.rs:567 *)
Definition SYM_RIGHTWARDS_ARROW_WITH_TAIL : rel := mkRel 0x21a3 RcA false.
(** symbol.rs:568 *)
Definition SYM_LEFTWARDS_ARROW_FROM_BAR : rel := mkRel 0x21a4 RcA false.
(** symbol.rs:569 *)
Definition SYM_UPWARDS_ARROW_FROM_BAR : rel := mkRel 0x21a5 RcA false.
(** symbol.rs:570 *)
Definition SYM_RIGHTWARDS_ARROW_FROM_BAR : rel := mkRel 0x21a6 RcA false.
(** symbol.rs:571 *)
Definition SYM_DOWNWARDS_ARROW_FROM_BAR : rel := mkRel 0x21a7 RcA false.
(** symbol.rs:573 *)
Definition SYM_LEFTWARDS_ARROW_WITH_HOOK : rel := mkRel 0x21a9 RcA false.
(** symbol.rs:574 *)
Definition SYM_RIGHTWARDS_ARROW_WITH_HOOK : rel := mkRel 0x21aa RcA false.
(** symbol.rs:575 *)
Definition SYM_LEFTWARDS_ARROW_WITH_LOOP : rel := mkRel 0x21ab RcA false.
(** symbol.rs:576 *)
Definition SYM_RIGHTWARDS_ARROW_WITH_LOOP : rel := mkRel 0x21ac RcA false.
(** symbol.rs:577 *)
Definition SYM_LEFT_RIGHT_WAVE_ARROW : rel := mkRel 0x21ad RcA false.
(** symbol.rs:578 *)
Definition SYM_LEFT_RIGHT_ARROW_WITH_STROKE : rel := mkRel 0x21ae RcA false.
(** symbol.rs:579 *)
Definition SYM_DOWNWARDS_ZIGZAG_ARROW : rel := mkRel 0x21af RcDefault false.
(** symbol.rs:580 *)
Definition SYM_UPWARDS_ARROW_WITH_TIP_LEFTWARDS : rel := mkRel 0x21b0 RcA false.
(** symbol.rs:581 *)
Definition SYM_UPWARDS_ARROW_WITH_TIP_RIGHTWARDS : rel := mkRel 0x21b1 RcA false.
(** symbol.rs:582 *)
Definition SYM_DOWNWARDS_ARROW_WITH_TIP_LEFTWARDS : rel := mkRel 0x21b2 RcA false.
(** symbol.rs:583 *)
Definition SYM_DOWNWARDS_ARROW_WITH_TIP_RIGHTWARDS : rel := mkRel 0x21b3 RcA false.
(** symbol.rs:586 *)
Definition SYM_ANTICLOCKWISE_TOP_SEMICIRCLE_ARROW : rel := mkRel 0x21b6 RcDefault false.
(** symbol.rs:587 *)
Definition SYM_CLOCKWISE_TOP_SEMICIRCLE_ARROW : rel := mkRel 0x21b7 RcDefault false.
(** symbol.rs:590 *)
Definition SYM_ANTICLOCKWISE_OPEN_CIRCLE_ARROW : rel := mkRel 0x21ba RcDefault false.
(** symbol.rs:591 *)
Definition SYM_CLOCKWISE_OPEN_CIRCLE_ARROW : rel := mkRel 0x21bb RcDefault false.
(** symbol.rs:592 *)
Definition SYM_LEFTWARDS_HARPOON_WITH_BARB_UPWARDS : rel := mkRel 0x21bc RcA false.
(** symbol.rs:593 *)
Definition SYM_LEFTWARDS_HARPOON_WITH_BARB_DOWNWARDS : rel := mkRel 0x21bd RcA false.
(** symbol.rs:594 *)
Definition SYM_UPWARDS_HARPOON_WITH_BARB_RIGHTWARDS : rel := mkRel 0x21be RcA false.
(** symbol.rs:595 *)
Definition SYM_UPWARDS_HARPOON_WITH_BARB_LEFTWARDS : rel := mkRel 0x21bf RcA false.
(** symbol.rs:596 *)
Definition SYM_RIGHTWARDS_HARPOON_WITH_BARB_UPWARDS : rel := mkRel 0x21c0 RcA false.
(** symbol.rs:597 *)
Definition SYM_RIGHTWARDS_HARPOON_WITH_BARB_DOWNWARDS : rel := mkRel 0x21c1 RcA false.
(** symbol.rs:598 *)
Definition SYM_DOWNWARDS_HARPOON_WITH_BARB_RIGHTWARDS : rel := mkRel 0x21c2 RcA false.
(** symbol.rs:599 *)
Definition SYM_DOWNWARDS_HARPOON_WITH_BARB_LEFTWARDS : rel := mkRel 0x21c3 RcA false.
(** symbol.rs:600 *)
Definition SYM_RIGHTWARDS_ARROW_OVER_LEFTWARDS_ARROW : rel := mkRel 0x21c4 RcA false.
(** symbol.rs:601 *)
Definition SYM_UPWARDS_ARROW_LEFTWARDS_OF_DOWNWARDS_ARROW : rel := mkRel 0x21c5 RcA false.
(** symbol.rs:602 *)
Definition SYM_LEFTWARDS_ARROW_OVER_RIGHTWARDS_ARROW : rel := mkRel 0x21c6 RcA false.
(** symbol.rs:603 *)
Definition SYM_LEFTWARDS_PAIRED_ARROWS : rel := mkRel 0x21c7 RcA false.
(** symbol.rs:604 *)
Definition SYM_UPWARDS_PAIRED_ARROWS : rel := mkRel 0x21c8 RcA false.
(** symbol.rs:605 *)
Definition SYM_RIGHTWARDS_PAIRED_ARROWS : rel := mkRel 0x21c9 RcA false.
(** symbol.rs:606 *)
Definition SYM_DOWNWARDS_PAIRED_ARROWS : rel := mkRel 0x21ca RcA false.
(** symbol.rs:607 *)
Definition SYM_LEFTWARDS_HARPOON_OVER_RIGHTWARDS_HARPOON : rel := mkRel 0x21cb RcA false.
(** symbol.rs:608 *)
Definition SYM_RIGHTWARDS_HARPOON_OVER_LEFTWARDS_HARPOON : rel := mkRel 0x21cc RcA false.
(** symbol.rs:609 *)
Definition SYM_LEFTWARDS_DOUBLE_ARROW_WITH_STROKE : rel := mkRel 0x21cd RcA false.
(** symbol.rs:610 *)
Definition SYM_LEFT_RIGHT_DOUBLE_ARROW_WITH_STROKE : rel := mkRel 0x21ce RcA false.
(** symbol.rs:611 *)
Definition SYM_RIGHTWARDS_DOUBLE_ARROW_WITH_STROKE : rel := mkRel 0x21cf RcA false.
(** symbol.rs:612 *)
Definition SYM_LEFTWARDS_DOUBLE_ARROW : rel := mkRel 0x21d0 RcA false.
(** symbol.rs:613 *)
Definition SYM_UPWARDS_DOUBLE_ARROW : rel := mkRel 0x21d1 RcA false.
(** symbol.rs:614 *)
Definition SYM_RIGHTWARDS_DOUBLE_ARROW : rel := mkRel 0x21d2 RcA false.
(** symbol.rs:615 *)
Definition SYM_DOWNWARDS_DOUBLE_ARROW : rel := mkRel 0x21d3 RcA false.
(** symbol.rs:616 *)
Definition SYM_LEFT_RIGHT_DOUBLE_ARROW : rel := mkRel 0x21d4 RcA false.
(** symbol.rs:617 *)
Definition SYM_UP_DOWN_DOUBLE_ARROW : rel := mkRel 0x21d5 RcA false.
(** symbol.rs:618 *)
Definition SYM_NORTH_WEST_DOUBLE_ARROW : rel := mkRel 0x21d6 RcDefault false.
(** symbol.rs:619 *)
Definition SYM_NORTH_EAST_DOUBLE_ARROW : rel := mkRel 0x21d7 RcDefault false.
(** symbol.rs:620 *)
Definition SYM_SOUTH_EAST_DOUBLE_ARROW : rel := mkRel 0x21d8 RcDefault false.
(** symbol.rs:621 *)
Definition SYM_SOUTH_WEST_DOUBLE_ARROW : rel := mkRel 0x21d9 RcDefault false.
(** symbol.rs:622 *)
Definition SYM_LEFTWARDS_TRIPLE_ARROW : rel := mkRel 0x21da RcA false.
(** symbol.rs:623 *)
Definition SYM_RIGHTWARDS_TRIPLE_ARROW : rel := mkRel 0x21db RcA false.
(** symbol.rs:624 *)
Definition SYM_LEFTWARDS_SQUIGGLE_ARROW : rel := mkRel 0x21dc RcA false.
(** symbol.rs:625 *)
Definition SYM_RIGHTWARDS_SQUIGGLE_ARROW : rel := mkRel 0x21dd RcA false.
(** symbol.rs:628 *)
Definition SYM_LEFTWARDS_DASHED_ARROW : rel := mkRel 0x21e0 RcA false.
(** symbol.rs:630 *)
Definition SYM_RIGHTWARDS_DASHED_ARROW : rel := mkRel 0x21e2 RcA false.
(** symbol.rs:632 *)
Definition SYM_LEFTWARDS_ARROW_TO_BAR : rel := mkRel 0x21e4 RcA false.
(** symbol.rs:633 *)
Definition SYM_RIGHTWARDS_ARROW_TO_BAR : rel := mkRel 0x21e5 RcA false.
(** symbol.rs:648 *)
Definition SYM_RIGHT_ARROW_WITH_SMALL_CIRCLE : rel := mkRel 0x21f4 RcA false.
(** symbol.rs:649 *)
Definition SYM_DOWNWARDS_ARROW_LEFTWARDS_OF_UPWARDS_ARROW : rel := mkRel 0x21f5 RcA false.
(** symbol.rs:650 *)
Definition SYM_THREE_RIGHTWARDS_ARROWS : rel := mkRel 0x21f6 RcA false.
(** symbol.rs:651 *)
Definition SYM_LEFTWARDS_ARROW_WITH_VERTICAL_STROKE : rel := mkRel 0x21f7 RcA false.
(** symbol.rs:652 *)
Definition SYM_RIGHTWARDS_ARROW_WITH_VERTICAL_STROKE : rel := mkRel 0x21f8 RcA false.
(** symbol.rs:653 *)
Definition SYM_LEFT_RIGHT_ARROW_WITH_VERTICAL_STROKE : rel := mkRel 0x21f9 RcA false.
(** symbol.rs:654 *)
Definition SYM_LEFTWARDS_ARROW_WITH_DOUBLE_VERTICAL_STROKE : rel := mkRel 0x21fa RcA false.
(** symbol.rs:655 *)
Definition SYM_RIGHTWARDS_ARROW_WITH_DOUBLE_VERTICAL_STROKE : rel := mkRel 0x21fb RcA false.
(** symbol.rs:656 *)
Definition SYM_LEFT_RIGHT_ARROW_WITH_DOUBLE_VERTICAL_STROKE : rel := mkRel 0x21fc RcA false.
(** symbol.rs:657 *)
Definition SYM_LEFTWARDS_OPEN_HEADED_ARROW : rel := mkRel 0x21fd RcA false.
(** symbol.rs:658 *)
Definition SYM_RIGHTWARDS_OPEN_HEADED_ARROW : rel := mkRel 0x21fe RcA false.
(** symbol.rs:659 *)
Definition SYM_LEFT_RIGHT_OPEN_HEADED_ARROW : rel := mkRel 0x21ff RcA false.
(** symbol.rs:664 *)
Definition SYM_FOR_ALL : ord_like := mkOrd 0x2200 OcD false.
(** symbol.rs:665 *)
Definition SYM_COMPLEMENT : ord_like := mkOrd 0x2201 OcD false.
(** symbol.rs:666 *)
Definition SYM_PARTIAL_DIFFERENTIAL : N := 0x2202.
(** symbol.rs:667 *)
Definition SYM_THERE_EXISTS : ord_like := mkOrd 0x2203 OcD false.
(** symbol.rs:668 *)
Definition SYM_THERE_DOES_NOT_EXIST : ord_like := mkOrd 0x2204 OcD false.
(** symbol.rs:669 *)
Definition SYM_EMPTY_SET : N := 0x2205.
(** symbol.rs:670 *)
Definition SYM_EMPTY_SET_ZERO_WITH_LONG_DIAGONAL_STROKE_OVERLAY_FORM : superchar := sc_from_char_with_vs 0x2205 1.
(** symbol.rs:674 *)
Definition SYM_NABLA : N := 0x2207.
(** symbol.rs:675 *)
Definition SYM_ELEMENT_OF : rel := mkRel 0x2208 RcDefault false.
(** symbol.rs:676 *)
Definition SYM_NOT_AN_ELEMENT_OF : rel := mkRel 0x2209 RcDefault false.
(** symbol.rs:677 *)
Definition SYM_SMALL_ELEMENT_OF : rel := mkRel 0x220a RcDefault false.
(** symbol.rs:678 *)
Definition SYM_CONTAINS_AS_MEMBER : rel := mkRel 0x220b RcDefault false.
(** symbol.rs:679 *)
Definition SYM_DOES_NOT_CONTAIN_AS_MEMBER : rel := mkRel 0x220c RcDefault false.
(** symbol.rs:680 *)
Definition SYM_SMALL_CONTAINS_AS_MEMBER : rel := mkRel 0x220d RcDefault false.
(** symbol.rs:682 *)
Definition SYM_N_ARY_PRODUCT : op := mkOp 0x220f PcJ false.
(** symbol.rs:683 *)
Definition SYM_N_ARY_COPRODUCT : op := mkOp 0x2210 PcJ false.
(** symbol.rs:684 *)
Definition SYM_N_ARY_SUMMATION : op := mkOp 0x2211 PcJ false.
(** symbol.rs:685 *)
Definition SYM_MINUS_SIGN : bin := mkBin 0x2212 BcBD false.
(** symbol.rs:686 *)
Definition SYM_MINUS_OR_PLUS_SIGN : bin := mkBin 0x2213 BcBD false.
(** symbol.rs:687 *)
Definition SYM_DOT_PLUS : bin := mkBin 0x2214 BcB false.
(** symbol.rs:688 *)
Definition SYM_DIVISION_SLASH : bin := mkBin 0x2215 BcB false.
(** symbol.rs:689 *)
Definition SYM_SET_MINUS : bin := mkBin 0x2216 BcB false.
(** symbol.rs:690 *)
Definition SYM_ASTERISK_OPERATOR : op := mkOp 0x2217 PcC false.
(** symbol.rs:691 *)
Definition SYM_RING_OPERATOR : op := mkOp 0x2218 PcC false.
(** symbol.rs:692 *)
Definition SYM_BULLET_OPERATOR : op := mkOp 0x2219 PcC false.
(** symbol.rs:696 *)
Definition SYM_PROPORTIONAL_TO : rel := mkRel 0x221d RcDefault false.
(** symbol.rs:697 *)
Definition SYM_INFINITY : N := 0x221e.
(** symbol.rs:699 *)
Definition SYM_ANGLE : N := 0x2220.
(** symbol.rs:700 *)
Definition SYM_MEASURED_ANGLE : N := 0x2221.
(** symbol.rs:701 *)
Definition SYM_SPHERICAL_ANGLE : N := 0x2222.
(** symbol.rs:702 *)
Definition SYM_DIVIDES : rel := mkRel 0x2223 RcDefault false.
(** symbol.rs:703 *)
Definition SYM_DOES_NOT_DIVIDE : rel := mkRel 0x2224 RcDefault false.
(** symbol.rs:704 *)
Definition SYM_PARALLEL_TO : rel := mkRel 0x2225 RcDefault false.
(** symbol.rs:705 *)
Definition SYM_NOT_PARALLEL_TO : rel := mkRel 0x2226 RcDefault false.
(** symbol.rs:706 *)
Definition SYM_LOGICAL_AND : bin := mkBin 0x2227 BcB false.
(** symbol.rs:707 *)
Definition SYM_LOGICAL_OR : bin := mkBin 0x2228 BcB false.
(** symbol.rs:708 *)
Definition SYM_INTERSECTION : bin := mkBin 0x2229 BcB false.
(** symbol.rs:709 *)
Definition SYM_UNION : bin := mkBin 0x222a BcB false.
(** symbol.rs:710 *)
Definition SYM_INTEGRAL : op := mkOp 0x222b PcH false.
(** symbol.rs:711 *)
Definition SYM_DOUBLE_INTEGRAL : op := mkOp 0x222c PcH false.
(** symbol.rs:712 *)
Definition SYM_TRIPLE_INTEGRAL : op := mkOp 0x222d PcH false.
(** symbol.rs:713 *)
Definition SYM_CONTOUR_INTEGRAL : op := mkOp 0x222e PcH false.
(** symbol.rs:714 *)
Definition SYM_SURFACE_INTEGRAL : op := mkOp 0x222f PcH false.
(** symbol.rs:715 *)
Definition SYM_VOLUME_INTEGRAL : op := mkOp 0x2230 PcH false.
(** symbol.rs:716 *)
Definition SYM_CLOCKWISE_INTEGRAL : op := mkOp 0x2231 PcH false.
(** symbol.rs:717 *)
Definition SYM_CLOCKWISE_CONTOUR_INTEGRAL : op := mkOp 0x2232 PcH false.
(** symbol.rs:718 *)
Definition SYM_ANTICLOCKWISE_CONTOUR_INTEGRAL : op := mkOp 0x2233 PcH false.
(** symbol.rs:719 *)
Definition SYM_THEREFORE : ord_like := mkOrd 0x2234 OcD false.
(** symbol.rs:720 *)
Definition SYM_BECAUSE : ord_like := mkOrd 0x2235 OcD false.
(** symbol.rs:721 *)
Definition SYM_RATIO : bin := mkBin 0x2236 BcB false.
(** symbol.rs:722 *)
Definition SYM_PROPORTION : rel := mkRel 0x2237 RcDefault false.
(** symbol.rs:723 *)
Definition SYM_DOT_MINUS : bin := mkBin 0x2238 BcB false.
(** symbol.rs:724 *)
Definition SYM_EXCESS : rel := mkRel 0x2239 RcDefault false.
(** symbol.rs:725 *)
Definition SYM_GEOMETRIC_PROPORTION : rel := mkRel 0x223a RcDefault false.
(** symbol.rs:726 *)
Definition SYM_HOMOTHETIC : rel := mkRel 0x223b RcDefault false.
(** symbol.rs:727 *)
Definition SYM_TILDE_OPERATOR : rel := mkRel 0x223c RcDandForceDefault false.
(** symbol.rs:728 *)
Definition SYM_REVERSED_TILDE : rel := mkRel 0x223d RcDefault false.
(** symbol.rs:729 *)
Definition SYM_INVERTED_LAZY_S : superchar := sc_from_char 0x223e.
(** symbol.rs:731 *)
Definition SYM_WREATH_PRODUCT : op := mkOp 0x2240 PcC false.
(** symbol.rs:732 *)
Definition SYM_NOT_TILDE : rel := mkRel 0x2241 RcDefault false.
(** symbol.rs:733 *)
Definition SYM_MINUS_TILDE : rel := mkRel 0x2242 RcDefault false.
(** symbol.rs:734 *)
Definition SYM_ASYMPTOTICALLY_EQUAL_TO : rel := mkRel 0x2243 RcDefault false.
(** symbol.rs:735 *)
Definition SYM_NOT_ASYMPTOTICALLY_EQUAL_TO : rel := mkRel 0x2244 RcDefault false.
(** symbol.rs:736 *)
Definition SYM_APPROXIMATELY_EQUAL_TO : rel := mkRel 0x2245 RcDefault false.
(** symbol.rs:737 *)
Definition SYM_APPROXIMATELY_BUT_NOT_ACTUALLY_EQUAL_TO : rel := mkRel 0x2246 RcDefault false.
(** symbol.rs:738 *)
Definition SYM_NEITHER_APPROXIMATELY_NOR_ACTUALLY_EQUAL_TO : rel := mkRel 0x2247 RcDefault false.
(** symbol.rs:739 *)
Definition SYM_ALMOST_EQUAL_TO : rel := mkRel 0x2248 RcDefault false.
(** symbol.rs:740 *)
Definition SYM_NOT_ALMOST_EQUAL_TO : rel := mkRel 0x2249 RcDefault false.
(** symbol.rs:741 *)
Definition SYM_ALMOST_EQUAL_OR_EQUAL_TO : rel := mkRel 0x224a RcDefault false.
(** symbol.rs:742 *)
Definition SYM_TRIPLE_TILDE : rel := mkRel 0x224b RcDefault false.
(** symbol.rs:743 *)
Definition SYM_ALL_EQUAL_TO : rel := mkRel 0x224c RcDefault false.
(** symbol.rs:744 *)
Definition SYM_EQUIVALENT_TO : rel := mkRel 0x224d RcDefault false.
(** symbol.rs:745 *)
Definition SYM_GEOMETRICALLY_EQUIVALENT_TO : rel := mkRel 0x224e RcDefault false.
(** symbol.rs:746 *)
Definition SYM_DIFFERENCE_BETWEEN : rel := mkRel 0x224f RcDefault false.
(** symbol.rs:747 *)
Definition SYM_APPROACHES_THE_LIMIT : rel := mkRel 0x2250 RcDefault false.
(** symbol.rs:748 *)
Definition SYM_GEOMETRICALLY_EQUAL_TO : rel := mkRel 0x2251 RcDefault false.
(** symbol.rs:749 *)
Definition SYM_APPROXIMATELY_EQUAL_TO_OR_THE_IMAGE_OF : rel := mkRel 0x2252 RcDefault false.
(** symbol.rs:750 *)
Definition SYM_IMAGE_OF_OR_APPROXIMATELY_EQUAL_TO : rel := mkRel 0x2253 RcDefault false.
(** symbol.rs:751 *)
Definition SYM_COLON_EQUALS : rel := mkRel 0x2254 RcDefault false.
(** symbol.rs:752 *)
Definition SYM_EQUALS_COLON : rel := mkRel 0x2255 RcDefault false.
(** symbol.rs:753 *)
Definition SYM_RING_IN_EQUAL_TO : rel := mkRel 0x2256 RcDefault false.
(** symbol.rs:754 *)
Definition SYM_RING_EQUAL_TO : rel := mkRel 0x2257 RcDefault false.
(** symbol.rs:755 *)
Definition SYM_CORRESPONDS_TO : rel := mkRel 0x2258 RcDefault false.
(** symbol.rs:756 *)
Definition SYM_ESTIMATES : rel := mkRel 0x2259 RcDefault false.
(** symbol.rs:757 *)
Definition SYM_EQUIANGULAR_TO : rel := mkRel 0x225a RcDefault false.
(** symbol.rs:758 *)
Definition SYM_STAR_EQUALS : rel := mkRel 0x225b RcDefault false.
(** symbol.rs:759 *)
Definition SYM_DELTA_EQUAL_TO : rel := mkRel 0x225c RcDefault false.
(** symbol.rs:760 *)
Definition SYM_EQUAL_TO_BY_DEFINITION : rel := mkRel 0x225d RcDefault false.
(** symbol.rs:761 *)
Definition SYM_MEASURED_BY : rel := mkRel 0x225e RcDefault false.
(** symbol.rs:762 *)
Definition SYM_QUESTIONED_EQUAL_TO : rel := mkRel 0x225f RcDefault false.
(** symbol.rs:763 *)
Definition SYM_NOT_EQUAL_TO : rel := mkRel 0x2260 RcDefault false.
(** symbol.rs:764 *)
Definition SYM_IDENTICAL_TO : rel := mkRel 0x2261 RcDefault false.
(** symbol.rs:765 *)
Definition SYM_NOT_IDENTICAL_TO : rel := mkRel 0x2262 RcDefault false.
(** symbol.rs:766 *)
Definition SYM_STRICTLY_EQUIVALENT_TO : rel := mkRel 0x2263 RcDefault false.
(** symbol.rs:767 *)
Definition SYM_LESS_THAN_OR_EQUAL_TO : rel := mkRel 0x2264 RcDefault false.
(** symbol.rs:768 *)
Definition SYM_GREATER_THAN_OR_EQUAL_TO : rel := mkRel 0x2265 RcDefault false.
(** symbol.rs:769 *)
Definition SYM_LESS_THAN_OVER_EQUAL_TO : rel := mkRel 0x2266 RcDefault false.
(** symbol.rs:770 *)
Definition SYM_GREATER_THAN_OVER_EQUAL_TO : rel := mkRel 0x2267 RcDefault false.
(** symbol.rs:771 *)
Definition SYM_LESS_THAN_BUT_NOT_EQUAL_TO : rel := mkRel 0x2268 RcDefault false.
(** symbol.rs:772 *)
Definition SYM_LESS_THAN_BUT_NOT_EQUAL_TO_WITH_VERTICAL_STROKE : rel := mkRel 0x2268 RcDefault true.
(** symbol.rs:774 *)
Definition SYM_GREATER_THAN_BUT_NOT_EQUAL_TO : rel := mkRel 0x2269 RcDefault false.
(** symbol.rs:775 *)
Definition SYM_GREATER_THAN_BUT_NOT_EQUAL_TO_WITH_VERTICAL_STROKE : rel := mkRel 0x2269 RcDefault true.
(** symbol.rs:777 *)
Definition SYM_MUCH_LESS_THAN : rel := mkRel 0x226a RcDefault false.
(** symbol.rs:778 *)
Definition SYM_MUCH_GREATER_THAN : rel := mkRel 0x226b RcDefault false.
(** symbol.rs:779 *)
Definition SYM_BETWEEN : rel := mkRel 0x226c RcDefault false.
(** symbol.rs:780 *)
Definition SYM_NOT_EQUIVALENT_TO : rel := mkRel 0x226d RcDefault false.
(** symbol.rs:781 *)
Definition SYM_NOT_LESS_THAN : rel := mkRel 0x226e RcDefault false.
(** symbol.rs:782 *)
Definition SYM_NOT_GREATER_THAN : rel := mkRel 0x226f RcDefault false.
(** symbol.rs:783 *)
Definition SYM_NEITHER_LESS_THAN_NOR_EQUAL_TO : rel := mkRel 0x2270 RcDefault false.
(** symbol.rs:784 *)
Definition SYM_NEITHER_GREATER_THAN_NOR_EQUAL_TO : rel := mkRel 0x2271 RcDefault false.
(** symbol.rs:785 *)
Definition SYM_LESS_THAN_OR_EQUIVALENT_TO : rel := mkRel 0x2272 RcDefault false.
(** symbol.rs:786 *)
Definition SYM_GREATER_THAN_OR_EQUIVALENT_TO : rel := mkRel 0x2273 RcDefault false.
(** symbol.rs:787 *)
Definition SYM_NEITHER_LESS_THAN_NOR_EQUIVALENT_TO : rel := mkRel 0x2274 RcDefault false.
(** symbol.rs:788 *)
Definition SYM_NEITHER_GREATER_THAN_NOR_EQUIVALENT_TO : rel := mkRel 0x2275 RcDefault false.
(** symbol.rs:789 *)
Definition SYM_LESS_THAN_OR_GREATER_THAN : rel := mkRel 0x2276 RcDefault false.
(** symbol.rs:790 *)
Definition SYM_GREATER_THAN_OR_LESS_THAN : rel := mkRel 0x2277 RcDefault false.
(** symbol.rs:791 *)
Definition SYM_NEITHER_LESS_THAN_NOR_GREATER_THAN : rel := mkRel 0x2278 RcDefault false.
(** symbol.rs:792 *)
Definition SYM_NEITHER_GREATER_THAN_NOR_LESS_THAN : rel := mkRel 0x2279 RcDefault false.
(** symbol.rs:793 *)
Definition SYM_PRECEDES : rel := mkRel 0x227a RcDefault false.
(** symbol.rs:794 *)
Definition SYM_SUCCEEDS : rel := mkRel 0x227b RcDefault false.
(** symbol.rs:795 *)
Definition SYM_PRECEDES_OR_EQUAL_TO : rel := mkRel 0x227c RcDefault false.
(** symbol.rs:796 *)
Definition SYM_SUCCEEDS_OR_EQUAL_TO : rel := mkRel 0x227d RcDefault false.
(** symbol.rs:797 *)
Definition SYM_PRECEDES_OR_EQUIVALENT_TO : rel := mkRel 0x227e RcDefault false.
(** symbol.rs:798 *)
Definition SYM_SUCCEEDS_OR_EQUIVALENT_TO : rel := mkRel 0x227f RcDefault false.
(** symbol.rs:799 *)
Definition SYM_DOES_NOT_PRECEDE : rel := mkRel 0x2280 RcDefault false.
(** symbol.rs:800 *)
Definition SYM_DOES_NOT_SUCCEED : rel := mkRel 0x2281 RcDefault false.
(** symbol.rs:801 *)
Definition SYM_SUBSET_OF : rel := mkRel 0x2282 RcDefault false.
(** symbol.rs:802 *)
Definition SYM_SUPERSET_OF : rel := mkRel 0x2283 RcDefault false.
(** symbol.rs:803 *)
Definition SYM_NOT_A_SUBSET_OF : rel := mkRel 0x2284 RcDefault false.
(** symbol.rs:804 *)
Definition SYM_NOT_A_SUPERSET_OF : rel := mkRel 0x2285 RcDefault false.
(** symbol.rs:805 *)
Definition SYM_SUBSET_OF_OR_EQUAL_TO : rel := mkRel 0x2286 RcDefault false.
(** symbol.rs:806 *)
Definition SYM_SUPERSET_OF_OR_EQUAL_TO : rel := mkRel 0x2287 RcDefault false.
(** symbol.rs:807 *)
Definition SYM_NEITHER_A_SUBSET_OF_NOR_EQUAL_TO : rel := mkRel 0x2288 RcDefault false.
(** symbol.rs:808 *)
Definition SYM_NEITHER_A_SUPERSET_OF_NOR_EQUAL_TO : rel := mkRel 0x2289 RcDefault false.
(** symbol.rs:809 *)
Definition SYM_SUBSET_OF_WITH_NOT_EQUAL_TO : rel := mkRel 0x228a RcDefault false.
(** symbol.rs:810 *)
Definition SYM_SUBSET_OF_WITH_NOT_EQUAL_TO_WITH_STROKE_THROUGH_BOTTOM_MEMBERS : rel := mkRel 0x228a RcDefault true.
(** symbol.rs:813 *)
Definition SYM_SUPERSET_OF_WITH_NOT_EQUAL_TO : rel := mkRel 0x228b RcDefault false.
(** symbol.rs:814 *)
Definition SYM_SUPERSET_OF_WITH_NOT_EQUAL_TO_WITH_STROKE_THROUGH_BOTTOM_MEMBERS : rel := mkRel 0x228b RcDefault true.
(** symbol.rs:816 *)
Definition SYM_MULTISET : bin := mkBin 0x228c BcB false.
(** symbol.rs:817 *)
Definition SYM_MULTISET_MULTIPLICATION : bin := mkBin 0x228d BcB false.
(** symbol.rs:818 *)
Definition SYM_MULTISET_UNION : bin := mkBin 0x228e BcB false.
(** symbol.rs:819 *)
Definition SYM_SQUARE_IMAGE_OF : rel := mkRel 0x228f RcDefault false.
(** symbol.rs:820 *)
Definition SYM_SQUARE_ORIGINAL_OF : rel := mkRel 0x2290 RcDefault false.
(** symbol.rs:821 *)
Definition SYM_SQUARE_IMAGE_OF_OR_EQUAL_TO : rel := mkRel 0x2291 RcDefault false.
(** symbol.rs:822 *)
Definition SYM_SQUARE_ORIGINAL_OF_OR_EQUAL_TO : rel := mkRel 0x2292 RcDefault false.
(** symbol.rs:823 *)
Definition SYM_SQUARE_CAP : bin := mkBin 0x2293 BcB false.
(** symbol.rs:824 *)
Definition SYM_SQUARE_CUP : bin := mkBin 0x2294 BcB false.
(** symbol.rs:825 *)
Definition SYM_CIRCLED_PLUS : bin := mkBin 0x2295 BcB false.
(** symbol.rs:826 *)
Definition SYM_CIRCLED_MINUS : bin := mkBin 0x2296 BcB false.
(** symbol.rs:827 *)
Definition SYM_CIRCLED_TIMES : op := mkOp 0x2297 PcC false.
(** symbol.rs:828 *)
Definition SYM_CIRCLED_DIVISION_SLASH : bin := mkBin 0x2298 BcB false.
(** symbol.rs:829 *)
Definition SYM_CIRCLED_DOT_OPERATOR : op := mkOp 0x2299 PcC false.
(** symbol.rs:830 *)
Definition SYM_CIRCLED_RING_OPERATOR : op := mkOp 0x229a PcC false.
(** symbol.rs:831 *)
Definition SYM_CIRCLED_ASTERISK_OPERATOR : op := mkOp 0x229b PcC false.
(** symbol.rs:832 *)
Definition SYM_CIRCLED_EQUALS : rel := mkRel 0x229c RcDefault false.
(** symbol.rs:833 *)
Definition SYM_CIRCLED_DASH : bin := mkBin 0x229d BcB false.
(** symbol.rs:834 *)
Definition SYM_SQUARED_PLUS : bin := mkBin 0x229e BcB false.
(** symbol.rs:835 *)
Definition SYM_SQUARED_MINUS : bin := mkBin 0x229f BcB false.
(** symbol.rs:836 *)
Definition SYM_SQUARED_TIMES : op := mkOp 0x22a0 PcC false.
(** symbol.rs:837 *)
Definition SYM_SQUARED_DOT_OPERATOR : op := mkOp 0x22a1 PcC false.
(** symbol.rs:838 *)
Definition SYM_RIGHT_TACK : rel := mkRel 0x22a2 RcDefault false.
(** symbol.rs:839 *)
Definition SYM_LEFT_TACK : rel := mkRel 0x22a3 RcDefault false.
(** symbol.rs:840 *)
Definition SYM_DOWN_TACK : N := 0x22a4.
(** symbol.rs:841 *)
Definition SYM_UP_TACK : N := 0x22a5.
(** symbol.rs:842 *)
Definition SYM_ASSERTION : rel := mkRel 0x22a6 RcDefault false.
(** symbol.rs:843 *)
Definition SYM_MODELS : rel := mkRel 0x22a7 RcDefault false.
(** symbol.rs:844 *)
Definition SYM_TRUE : rel := mkRel 0x22a8 RcDefault false.
(** symbol.rs:845 *)
Definition SYM_FORCES : rel := mkRel 0x22a9 RcDefault false.
(** symbol.rs:846 *)
Definition SYM_TRIPLE_VERTICAL_BAR_RIGHT_TURNSTILE : rel := mkRel 0x22aa RcDefault false.
(** symbol.rs:847 *)
Definition SYM_DOUBLE_VERTICAL_BAR_DOUBLE_RIGHT_TURNSTILE : rel := mkRel 0x22ab RcDefault false.
(** symbol.rs:848 *)
Definition SYM_DOES_NOT_PROVE : rel := mkRel 0x22ac RcDefault false.
(** symbol.rs:849 *)
Definition SYM_NOT_TRUE : rel := mkRel 0x22ad RcDefault false.
(** symbol.rs:850 *)
Definition SYM_DOES_NOT_FORCE : rel := mkRel 0x22ae RcDefault false.
(** symbol.rs:851 *)
Definition SYM_NEGATED_DOUBLE_VERTICAL_BAR_DOUBLE_RIGHT_TURNSTILE : rel := mkRel 0x22af RcDefault false.
(** symbol.rs:853 *)
Definition SYM_PRECEDES_UNDER_RELATION : rel := mkRel 0x22b0 RcDefault false.
(** symbol.rs:854 *)
Definition SYM_SUCCEEDS_UNDER_RELATION : rel := mkRel 0x22b1 RcDefault false.
(** symbol.rs:855 *)
Definition SYM_NORMAL_SUBGROUP_OF : rel := mkRel 0x22b2 RcDefault false.
(** symbol.rs:856 *)
Definition SYM_CONTAINS_AS_NORMAL_SUBGROUP : rel := mkRel 0x22b3 RcDefault false.
(** symbol.rs:857 *)
Definition SYM_NORMAL_SUBGROUP_OF_OR_EQUAL_TO : rel := mkRel 0x22b4 RcDefault false.
(** symbol.rs:858 *)
Definition SYM_CONTAINS_AS_NORMAL_SUBGROUP_OR_EQUAL_TO : rel := mkRel 0x22b5 RcDefault false.
(** symbol.rs:859 *)
Definition SYM_ORIGINAL_OF : rel := mkRel 0x22b6 RcDefault false.
(** symbol.rs:860 *)
Definition SYM_IMAGE_OF : rel := mkRel 0x22b7 RcDefault false.
(** symbol.rs:861 *)
Definition SYM_MULTIMAP : rel := mkRel 0x22b8 RcDefault false.
(** symbol.rs:863 *)
Definition SYM_INTERCALATE : op := mkOp 0x22ba PcC false.
(** symbol.rs:864 *)
Definition SYM_XOR : bin := mkBin 0x22bb BcB false.
(** symbol.rs:865 *)
Definition SYM_NAND : bin := mkBin 0x22bc BcB false.
(** symbol.rs:866 *)
Definition SYM_NOR : bin := mkBin 0x22bd BcB false.
(** symbol.rs:869 *)
Definition SYM_N_ARY_LOGICAL_AND : op := mkOp 0x22c0 PcJ false.
(** symbol.rs:870 *)
Definition SYM_N_ARY_LOGICAL_OR : op := mkOp 0x22c1 PcJ false.
(** symbol.rs:871 *)
Definition SYM_N_ARY_INTERSECTION : op := mkOp 0x22c2 PcJ false.
(** symbol.rs:872 *)
Definition SYM_N_ARY_UNION : op := mkOp 0x22c3 PcJ false.
(** symbol.rs:873 *)
Definition SYM_DIAMOND_OPERATOR : op := mkOp 0x22c4 PcC false.
(** symbol.rs:874 *)
Definition SYM_DOT_OPERATOR : op := mkOp 0x22c5 PcC false.
(** symbol.rs:875 *)
Definition SYM_STAR_OPERATOR : op := mkOp 0x22c6 PcC false.
(** symbol.rs:876 *)
Definition SYM_DIVISION_TIMES : op := mkOp 0x22c7 PcC false.
(** symbol.rs:877 *)
Definition SYM_BOWTIE : rel := mkRel 0x22c8 RcDefault false.
(** symbol.rs:878 *)
Definition SYM_LEFT_NORMAL_FACTOR_SEMIDIRECT_PRODUCT : op := mkOp 0x22c9 PcC false.
(** symbol.rs:879 *)
Definition SYM_RIGHT_NORMAL_FACTOR_SEMIDIRECT_PRODUCT : op := mkOp 0x22ca PcC false.
(** symbol.rs:880 *)
Definition SYM_LEFT_SEMIDIRECT_PRODUCT : op := mkOp 0x22cb PcC false.
(** symbol.rs:881 *)
Definition SYM_RIGHT_SEMIDIRECT_PRODUCT : op := mkOp 0x22cc PcC false.
(** symbol.rs:882 *)
Definition SYM_REVERSED_TILDE_EQUALS : rel := mkRel 0x22cd RcDefault false.
(** symbol.rs:883 *)
Definition SYM_CURLY_LOGICAL_OR : bin := mkBin 0x22ce BcB false.
(** symbol.rs:884 *)
Definition SYM_CURLY_LOGICAL_AND : bin := mkBin 0x22cf BcB false.
(** symbol.rs:885 *)
Definition SYM_DOUBLE_SUBSET : rel := mkRel 0x22d0 RcDefault false.
(** symbol.rs:886 *)
Definition SYM_DOUBLE_SUPERSET : rel := mkRel 0x22d1 RcDefault false.
(** symbol.rs:887 *)
Definition SYM_DOUBLE_INTERSECTION : bin := mkBin 0x22d2 BcB false.
(** symbol.rs:888 *)
Definition SYM_DOUBLE_UNION : bin := mkBin 0x22d3 BcB false.
(** symbol.rs:889 *)
Definition SYM_PITCHFORK : rel := mkRel 0x22d4 RcDefault false.
(** symbol.rs:890 *)
Definition SYM_EQUAL_AND_PARALLEL_TO : rel := mkRel 0x22d5 RcDefault false.
(** symbol.rs:891 *)
Definition SYM_LESS_THAN_WITH_DOT : rel := mkRel 0x22d6 RcDefault false.
(** symbol.rs:892 *)
Definition SYM_GREATER_THAN_WITH_DOT : rel := mkRel 0x22d7 RcDefault false.
(** symbol.rs:893 *)
Definition SYM_VERY_MUCH_LESS_THAN : rel := mkRel 0x22d8 RcDefault false.
(** symbol.rs:894 *)
Definition SYM_VERY_MUCH_GREATER_THAN : rel := mkRel 0x22d9 RcDefault false.
(** symbol.rs:895 *)
Definition SYM_LESS_THAN_EQUAL_TO_OR_GREATER_THAN : rel := mkRel 0x22da RcDefault false.
(** symbol.rs:896 *)
Definition SYM_GREATER_THAN_EQUAL_TO_OR_LESS_THAN : rel := mkRel 0x22db RcDefault false.
(** symbol.rs:897 *)
Definition SYM_EQUAL_TO_OR_LESS_THAN : rel := mkRel 0x22dc RcDefault false.
(** symbol.rs:898 *)
Definition SYM_EQUAL_TO_OR_GREATER_THAN : rel := mkRel 0x22dd RcDefault false.
(** symbol.rs:899 *)
Definition SYM_EQUAL_TO_OR_PRECEDES : rel := mkRel 0x22de RcDefault false.
(** symbol.rs:900 *)
Definition SYM_EQUAL_TO_OR_SUCCEEDS : rel := mkRel 0x22df RcDefault false.
(** symbol.rs:901 *)
Definition SYM_DOES_NOT_PRECEDE_OR_EQUAL : rel := mkRel 0x22e0 RcDefault false.
(** symbol.rs:902 *)
Definition SYM_DOES_NOT_SUCCEED_OR_EQUAL : rel := mkRel 0x22e1 RcDefault false.
(** symbol.rs:903 *)
Definition SYM_NOT_SQUARE_IMAGE_OF_OR_EQUAL_TO : rel := mkRel 0x22e2 RcDefault false.
(** symbol.rs:904 *)
Definition SYM_NOT_SQUARE_ORIGINAL_OF_OR_EQUAL_TO : rel := mkRel 0x22e3 RcDefault false.
(** symbol.rs:905 *)
Definition SYM_SQUARE_IMAGE_OF_OR_NOT_EQUAL_TO : rel := mkRel 0x22e4 RcDefault false.
(** symbol.rs:906 *)
Definition SYM_SQUARE_ORIGINAL_OF_OR_NOT_EQUAL_TO : rel := mkRel 0x22e5 RcDefault false.
(** symbol.rs:907 *)
Definition SYM_LESS_THAN_BUT_NOT_EQUIVALENT_TO : rel := mkRel 0x22e6 RcDefault false.
(** symbol.rs:908 *)
Definition SYM_GREATER_THAN_BUT_NOT_EQUIVALENT_TO : rel := mkRel 0x22e7 RcDefault false.
(** symbol.rs:909 *)
Definition SYM_PRECEDES_BUT_NOT_EQUIVALENT_TO : rel := mkRel 0x22e8 RcDefault false.
(** symbol.rs:910 *)
Definition SYM_SUCCEEDS_BUT_NOT_EQUIVALENT_TO : rel := mkRel 0x22e9 RcDefault false.
(** symbol.rs:911 *)
Definition SYM_NOT_NORMAL_SUBGROUP_OF : rel := mkRel 0x22ea RcDefault false.
(** symbol.rs:912 *)
Definition SYM_DOES_NOT_CONTAIN_AS_NORMAL_SUBGROUP : rel := mkRel 0x22eb RcDefault false.
(** symbol.rs:913 *)
Definition SYM_NOT_NORMAL_SUBGROUP_OF_OR_EQUAL_TO : rel := mkRel 0x22ec RcDefault false.
(** symbol.rs:914 *)
Definition SYM_DOES_NOT_CONTAIN_AS_NORMAL_SUBGROUP_OR_EQUAL : rel := mkRel 0x22ed RcDefault false.
(** symbol.rs:915 *)
Definition SYM_VERTICAL_ELLIPSIS : rel := mkRel 0x22ee RcDefault false.
(** symbol.rs:916 *)
Definition SYM_MIDLINE_HORIZONTAL_ELLIPSIS : rel := mkRel 0x22ef RcDefault false.
(** symbol.rs:917 *)
Definition SYM_UP_RIGHT_DIAGONAL_ELLIPSIS : rel := mkRel 0x22f0 RcDefault false.
(** symbol.rs:918 *)
Definition SYM_DOWN_RIGHT_DIAGONAL_ELLIPSIS : rel := mkRel 0x22f1 RcDefault false.
(** symbol.rs:919 *)
Definition SYM_ELEMENT_OF_WITH_LONG_HORIZONTAL_STROKE : rel := mkRel 0x22f2 RcDefault false.
(** symbol.rs:920 *)
Definition SYM_ELEMENT_OF_WITH_VERTICAL_BAR_AT_END_OF_HORIZONTAL_STROKE : rel := mkRel 0x22f3 RcDefault false.
(** symbol.rs:922 *)
Definition SYM_SMALL_ELEMENT_OF_WITH_VERTICAL_BAR_AT_END_OF_HORIZONTAL_STROKE : rel := mkRel 0x22f4 RcDefault false.
(** symbol.rs:924 *)
Definition SYM_ELEMENT_OF_WITH_DOT_ABOVE : rel := mkRel 0x22f5 RcDefault false.
(** symbol.rs:925 *)
Definition SYM_ELEMENT_OF_WITH_OVERBAR : rel := mkRel 0x22f6 RcDefault false.
(** symbol.rs:926 *)
Definition SYM_SMALL_ELEMENT_OF_WITH_OVERBAR : rel := mkRel 0x22f7 RcDefault false.
(** symbol.rs:927 *)
Definition SYM_ELEMENT_OF_WITH_UNDERBAR : rel := mkRel 0x22f8 RcDefault false.
(** symbol.rs:928 *)
Definition SYM_ELEMENT_OF_WITH_TWO_HORIZONTAL_STROKES : rel := mkRel 0x22f9 RcDefault false.
(** symbol.rs:929 *)
Definition SYM_CONTAINS_WITH_LONG_HORIZONTAL_STROKE : rel := mkRel 0x22fa RcDefault false.
(** symbol.rs:930 *)
Definition SYM_CONTAINS_WITH_VERTICAL_BAR_AT_END_OF_HORIZONTAL_STROKE : rel := mkRel 0x22fb RcDefault false.
(** symbol.rs:932 *)
Definition SYM_SMALL_CONTAINS_WITH_VERTICAL_BAR_AT_END_OF_HORIZONTAL_STROKE : rel := mkRel 0x22fc RcDefault false.
(** symbol.rs:934 *)
Definition SYM_CONTAINS_WITH_OVERBAR : rel := mkRel 0x22fd RcDefault false.
(** symbol.rs:935 *)
Definition SYM_SMALL_CONTAINS_WITH_OVERBAR : rel := mkRel 0x22fe RcDefault false.
(** symbol.rs:936 *)
Definition SYM_Z_NOTATION_BAG_MEMBERSHIP : rel := mkRel 0x22ff RcDefault false.
(** symbol.rs:945 *)
Definition SYM_LEFT_CEILING : ord_like := mkOrd 0x2308 OcF false.
(** symbol.rs:946 *)
Definition SYM_RIGHT_CEILING : ord_like := mkOrd 0x2309 OcG false.
(** symbol.rs:947 *)
Definition SYM_LEFT_FLOOR : ord_like := mkOrd 0x230a OcF false.
(** symbol.rs:948 *)
Definition SYM_RIGHT_FLOOR : ord_like := mkOrd 0x230b OcG false.
(** symbol.rs:949 *)
Definition SYM_TOP_LEFT_CORNER : superchar := sc_from_char 0x231c.
(** symbol.rs:950 *)
Definition SYM_TOP_RIGHT_CORNER : superchar := sc_from_char 0x231d.
(** symbol.rs:951 *)
Definition SYM_BOTTOM_LEFT_CORNER : superchar := sc_from_char 0x231e.
(** symbol.rs:952 *)
Definition SYM_BOTTOM_RIGHT_CORNER : superchar := sc_from_char 0x231f.
(** symbol.rs:953 *)
Definition SYM_FROWN : ord_like := mkOrd 0x2322 OcI false.
(** symbol.rs:954 *)
Definition SYM_SMILE : ord_like := mkOrd 0x2323 OcI false.
(** symbol.rs:958 *)
Definition SYM_UPPER_LEFT_OR_LOWER_RIGHT_CURLY_BRACKET_SECTION : superchar := sc_from_char 0x23b0.
(** symbol.rs:960 *)
Definition SYM_UPPER_RIGHT_OR_LOWER_LEFT_CURLY_BRACKET_SECTION : superchar := sc_from_char 0x23b1.
(** symbol.rs:962 *)
Definition SYM_TOP_SQUARE_BRACKET : ord_like := mkOrd 0x23b4 OcI false.
(** symbol.rs:963 *)
Definition SYM_BOTTOM_SQUARE_BRACKET : ord_like := mkOrd 0x23b5 OcI false.
(** symbol.rs:964 *)
Definition SYM_TOP_PARENTHESIS : ord_like := mkOrd 0x23dc OcI false.
(** symbol.rs:965 *)
Definition SYM_BOTTOM_PARENTHESIS : ord_like := mkOrd 0x23dd OcI false.
(** symbol.rs:966 *)
Definition SYM_TOP_CURLY_BRACKET : ord_like := mkOrd 0x23de OcI false.
(** symbol.rs:967 *)
Definition SYM_BOTTOM_CURLY_BRACKET : ord_like := mkOrd 0x23df OcI false.
(** symbol.rs:968 *)
Definition SYM_TOP_TORTOISE_SHELL_BRACKET : ord_like := mkOrd 0x23e0 OcI false.
(** symbol.rs:969 *)
Definition SYM_BOTTOM_TORTOISE_SHELL_BRACKET : ord_like := mkOrd 0x23e1 OcI false.
(** symbol.rs:974 *)
Definition SYM_CIRCLED_LATIN_CAPITAL_LETTER_R : N := 0x24c7.
(** symbol.rs:975 *)
Definition SYM_CIRCLED_LATIN_CAPITAL_LETTER_S : N := 0x24c8.
(** symbol.rs:980 *)
Definition SYM_BLACK_SQUARE : N := 0x25a0.
(** symbol.rs:981 *)
Definition SYM_WHITE_SQUARE : N := 0x25a1.
(** symbol.rs:983 *)
Definition SYM_BLACK_UP_POINTING_TRIANGLE : N := 0x25b2.
(** symbol.rs:984 *)
Definition SYM_WHITE_UP_POINTING_TRIANGLE : superchar := sc_from_char 0x25b3.
(** symbol.rs:986 *)
Definition SYM_BLACK_RIGHT_POINTING_TRIANGLE : superchar := sc_from_char 0x25b6.
(** symbol.rs:987 *)
Definition SYM_WHITE_RIGHT_POINTING_TRIANGLE : superchar := sc_from_char 0x25b7.
(** symbol.rs:989 *)
Definition SYM_BLACK_DOWN_POINTING_TRIANGLE : N := 0x25bc.
(** symbol.rs:990 *)
Definition SYM_WHITE_DOWN_POINTING_TRIANGLE : superchar := sc_from_char 0x25bd.
(** symbol.rs:992 *)
Definition SYM_BLACK_LEFT_POINTING_TRIANGLE : superchar := sc_from_char 0x25c0.
(** symbol.rs:993 *)
Definition SYM_WHITE_LEFT_POINTING_TRIANGLE : superchar := sc_from_char 0x25c1.
(** symbol.rs:995 *)
Definition SYM_LOZENGE : N := 0x25ca.
(** symbol.rs:996 *)
Definition SYM_WHITE_CIRCLE : superchar := sc_from_char 0x25cb.
(** symbol.rs:998 *)
Definition SYM_WHITE_SQUARE_WITH_VERTICAL_BISECTING_LINE : superchar := sc_from_char 0x25eb.
(** symbol.rs:1000 *)
Definition SYM_LARGE_CIRCLE : N := 0x25ef.
(** symbol.rs:1002 *)
Definition SYM_WHITE_MEDIUM_SQUARE : N := 0x25fb.
(** symbol.rs:1007 *)
Definition SYM_BLACK_STAR : N := 0x2605.
(** symbol.rs:1009 *)
Definition SYM_ASCENDING_NODE : N := 0x260a.
(** symbol.rs:1011 *)
Definition SYM_BLACK_SPADE_SUIT : N := 0x2660.
(** symbol.rs:1012 *)
Definition SYM_WHITE_HEART_SUIT : N := 0x2661.
(** symbol.rs:1013 *)
Definition SYM_WHITE_DIAMOND_SUIT : N := 0x2662.
(** symbol.rs:1014 *)
Definition SYM_BLACK_CLUB_SUIT : N := 0x2663.
(** symbol.rs:1020 *)
Definition SYM_MUSIC_FLAT_SIGN : N := 0x266d.
(** symbol.rs:1021 *)
Definition SYM_MUSIC_NATURAL_SIGN : N := 0x266e.
(** symbol.rs:1022 *)
Definition SYM_MUSIC_SHARP_SIGN : N := 0x266f.
(** symbol.rs:1027 *)
Definition SYM_CHECK_MARK : N := 0x2713.
(** symbol.rs:1029 *)
Definition SYM_MALTESE_CROSS : N := 0x2720.
(** symbol.rs:1031 *)
Definition SYM_LIGHT_LEFT_TORTOISE_SHELL_BRACKET_ORNAMENT : ord_like := mkOrd 0x2772 OcF false.
(** symbol.rs:1032 *)
Definition SYM_LIGHT_RIGHT_TORTOISE_SHELL_BRACKET_ORNAMENT : ord_like := mkOrd 0x2773 OcG false.
(** symbol.rs:1037 *)
Definition SYM_PERPENDICULAR : rel := mkRel 0x27c2 RcDefault false.
(** symbol.rs:1039 *)
Definition SYM_LEFT_S_SHAPED_BAG_DELIMITER : superchar := sc_from_char 0x27c5.
(** symbol.rs:1040 *)
Definition SYM_RIGHT_S_SHAPED_BAG_DELIMITER : superchar := sc_from_char 0x27c6.
(** symbol.rs:1041 *)
Definition SYM_OR_WITH_DOT_INSIDE : superchar := sc_from_char 0x27c7.
(** symbol.rs:1043 *)
Definition SYM_MATHEMATICAL_RISING_DIAGONAL : op := mkOp 0x27cb PcC false.
(** symbol.rs:1044 *)
Definition SYM_MATHEMATICAL_FALLING_DIAGONAL : op := mkOp 0x27cd PcC false.
(** symbol.rs:1046 *)
Definition SYM_REVERSE_SOLIDUS_PRECEDING_SUPERSET : rel := mkRel 0x27c8 RcDefault false.
(** symbol.rs:1047 *)
Definition SYM_SUPERSET_PRECEDING_SOLIDUS : rel := mkRel 0x27c9 RcDefault false.
(** symbol.rs:1049 *)
Definition SYM_AND_WITH_DOT : superchar := sc_from_char 0x27d1.
(** symbol.rs:1050 *)
Definition SYM_ELEMENT_OF_OPENING_UPWARDS : rel := mkRel 0x27d2 RcDefault false.
(** symbol.rs:1052 *)
Definition SYM_LEFT_OUTER_JOIN : superchar := sc_from_char 0x27d5.
(** symbol.rs:1053 *)
Definition SYM_RIGHT_OUTER_JOIN : superchar := sc_from_char 0x27d6.
(** symbol.rs:1054 *)
Definition SYM_FULL_OUTER_JOIN : superchar := sc_from_char 0x27d7.
(** symbol.rs:1056 *)
Definition SYM_LARGE_UP_TACK : superchar := sc_from_char 0x27d8.
(** symbol.rs:1057 *)
Definition SYM_LARGE_DOWN_TACK : superchar := sc_from_char 0x27d9.
(** symbol.rs:1059 *)
Definition SYM_LEFT_AND_RIGHT_DOUBLE_TURNSTILE : rel := mkRel 0x27da RcDefault false.
(** symbol.rs:1060 *)
Definition SYM_LEFT_AND_RIGHT_TACK : rel := mkRel 0x27db RcDefault false.
(** symbol.rs:1061 *)
Definition SYM_LEFT_MULTIMAP : rel := mkRel 0x27dc RcDefault false.
(** symbol.rs:1062 *)
Definition SYM_LONG_RIGHT_TACK : rel := mkRel 0x27dd RcDefault false.
(** symbol.rs:1063 *)
Definition SYM_LONG_LEFT_TACK : rel := mkRel 0x27de RcDefault false.
(** symbol.rs:1064 *)
Definition SYM_UP_TACK_WITH_CIRCLE_ABOVE : rel := mkRel 0x27df RcDefault false.
(** symbol.rs:1066 *)
Definition SYM_MATHEMATICAL_LEFT_WHITE_SQUARE_BRACKET : ord_like := mkOrd 0x27e6 OcF false.
(** symbol.rs:1067 *)
Definition SYM_MATHEMATICAL_RIGHT_WHITE_SQUARE_BRACKET : ord_like := mkOrd 0x27e7 OcG false.
(** symbol.rs:1068 *)
Definition SYM_MATHEMATICAL_LEFT_ANGLE_BRACKET : ord_like := mkOrd 0x27e8 OcF false.
(** symbol.rs:1069 *)
Definition SYM_MATHEMATICAL_RIGHT_ANGLE_BRACKET : ord_like := mkOrd 0x27e9 OcG false.
(** symbol.rs:1070 *)
Definition SYM_MATHEMATICAL_LEFT_DOUBLE_ANGLE_BRACKET : ord_like := mkOrd 0x27ea OcF false.
(** symbol.rs:1071 *)
Definition SYM_MATHEMATICAL_RIGHT_DOUBLE_ANGLE_BRACKET : ord_like := mkOrd 0x27eb OcG false.
(** symbol.rs:1072 *)
Definition SYM_MATHEMATICAL_LEFT_WHITE_TORTOISE_SHELL_BRACKET : ord_like := mkOrd 0x27ec OcF false.
(** symbol.rs:1074 *)
Definition SYM_MATHEMATICAL_RIGHT_WHITE_TORTOISE_SHELL_BRACKET : ord_like := mkOrd 0x27ed OcG false.
(** symbol.rs:1076 *)
Definition SYM_MATHEMATICAL_LEFT_FLATTENED_PARENTHESIS : ord_like := mkOrd 0x27ee OcF false.
(** symbol.rs:1077 *)
Definition SYM_MATHEMATICAL_RIGHT_FLATTENED_PARENTHESIS : ord_like := mkOrd 0x27ef OcG false.
(** symbol.rs:1082 *)
Definition SYM_UPWARDS_QUADRUPLE_ARROW : rel := mkRel 0x27f0 RcA false.
(** symbol.rs:1083 *)
Definition SYM_DOWNWARDS_QUADRUPLE_ARROW : rel := mkRel 0x27f1 RcA false.
(** symbol.rs:1085 *)
Definition SYM_RIGHT_ARROW_WITH_CIRCLED_PLUS : rel := mkRel 0x27f4 RcA false.
(** symbol.rs:1086 *)
Definition SYM_ANTICLOCKWISE_GAPPED_CIRCLE_ARROW : rel := mkRel 0x27f2 RcDefault false.
(** symbol.rs:1087 *)
Definition SYM_CLOCKWISE_GAPPED_CIRCLE_ARROW : rel := mkRel 0x27f3 RcDefault false.
(** symbol.rs:1089 *)
Definition SYM_LONG_LEFTWARDS_ARROW : rel := mkRel 0x27f5 RcA false.
(** symbol.rs:1090 *)
Definition SYM_LONG_RIGHTWARDS_ARROW : rel := mkRel 0x27f6 RcA false.
(** symbol.rs:1091 *)
Definition SYM_LONG_LEFT_RIGHT_ARROW : rel := mkRel 0x27f7 RcA false.
(** symbol.rs:1092 *)
Definition SYM_LONG_LEFTWARDS_DOUBLE_ARROW : rel := mkRel 0x27f8 RcA false.
(** symbol.rs:1093 *)
Definition SYM_LONG_RIGHTWARDS_DOUBLE_ARROW : rel := mkRel 0x27f9 RcA false.
(** symbol.rs:1094 *)
Definition SYM_LONG_LEFT_RIGHT_DOUBLE_ARROW : rel := mkRel 0x27fa RcA false.
(** symbol.rs:1095 *)
Definition SYM_LONG_LEFTWARDS_ARROW_FROM_BAR : rel := mkRel 0x27fb RcA false.
(** symbol.rs:1096 *)
Definition SYM_LONG_RIGHTWARDS_ARROW_FROM_BAR : rel := mkRel 0x27fc RcA false.
(** symbol.rs:1097 *)
Definition SYM_LONG_LEFTWARDS_DOUBLE_ARROW_FROM_BAR : rel := mkRel 0x27fd RcA false.
(** symbol.rs:1098 *)
Definition SYM_LONG_RIGHTWARDS_DOUBLE_ARROW_FROM_BAR : rel := mkRel 0x27fe RcA false.
(** symbol.rs:1099 *)
Definition SYM_LONG_RIGHTWARDS_SQUIGGLE_ARROW : rel := mkRel 0x27ff RcA false.
(** symbol.rs:1104 *)
Definition SYM_RIGHTWARDS_TWO_HEADED_ARROW_WITH_VERTICAL_STROKE : rel := mkRel 0x2900 RcA false.
(** symbol.rs:1105 *)
Definition SYM_RIGHTWARDS_TWO_HEADED_ARROW_WITH_DOUBLE_VERTICAL_STROKE : rel := mkRel 0x2901 RcA false.
(** symbol.rs:1107 *)
Definition SYM_LEFTWARDS_DOUBLE_ARROW_WITH_VERTICAL_STROKE : rel := mkRel 0x2902 RcA false.
(** symbol.rs:1108 *)
Definition SYM_RIGHTWARDS_DOUBLE_ARROW_WITH_VERTICAL_STROKE : rel := mkRel 0x2903 RcA false.
(** symbol.rs:1109 *)
Definition SYM_LEFT_RIGHT_DOUBLE_ARROW_WITH_VERTICAL_STROKE : rel := mkRel 0x2904 RcA false.
(** symbol.rs:1110 *)
Definition SYM_RIGHTWARDS_TWO_HEADED_ARROW_FROM_BAR : rel := mkRel 0x2905 RcA false.
(** symbol.rs:1111 *)
Definition SYM_LEFTWARDS_DOUBLE_ARROW_FROM_BAR : rel := mkRel 0x2906 RcA false.
(** symbol.rs:1112 *)
Definition SYM_RIGHTWARDS_DOUBLE_ARROW_FROM_BAR : rel := mkRel 0x2907 RcA false.
(** symbol.rs:1113 *)
Definition SYM_DOWNWARDS_ARROW_WITH_HORIZONTAL_STROKE : rel := mkRel 0x2908 RcA false.
(** symbol.rs:1114 *)
Definition SYM_UPWARDS_ARROW_WITH_HORIZONTAL_STROKE : rel := mkRel 0x2909 RcA false.
(** symbol.rs:1115 *)
Definition SYM_UPWARDS_TRIPLE_ARROW : rel := mkRel 0x290a RcA false.
(** symbol.rs:1116 *)
Definition SYM_DOWNWARDS_TRIPLE_ARROW : rel := mkRel 0x290b RcA false.
(** symbol.rs:1117 *)
Definition SYM_LEFTWARDS_DOUBLE_DASH_ARROW : rel := mkRel 0x290c RcA false.
(** symbol.rs:1118 *)
Definition SYM_RIGHTWARDS_DOUBLE_DASH_ARROW : rel := mkRel 0x290d RcA false.
(** symbol.rs:1119 *)
Definition SYM_LEFTWARDS_TRIPLE_DASH_ARROW : rel := mkRel 0x290e RcA false.
(** symbol.rs:1120 *)
Definition SYM_RIGHTWARDS_TRIPLE_DASH_ARROW : rel := mkRel 0x290f RcA false.
(** symbol.rs:1121 *)
Definition SYM_RIGHTWARDS_TWO_HEADED_TRIPLE_DASH_ARROW : rel := mkRel 0x2910 RcA false.
(** symbol.rs:1122 *)
Definition SYM_RIGHTWARDS_ARROW_WITH_DOTTED_STEM : rel := mkRel 0x2911 RcA false.
(** symbol.rs:1123 *)
Definition SYM_UPWARDS_ARROW_TO_BAR : rel := mkRel 0x2912 RcA false.
(** symbol.rs:1124 *)
Definition SYM_DOWNWARDS_ARROW_TO_BAR : rel := mkRel 0x2913 RcA false.
(** symbol.rs:1125 *)
Definition SYM_RIGHTWARDS_ARROW_WITH_TAIL_WITH_VERTICAL_STROKE : rel := mkRel 0x2914 RcA false.
(** symbol.rs:1126 *)
Definition SYM_RIGHTWARDS_ARROW_WITH_TAIL_WITH_DOUBLE_VERTICAL_STROKE : rel := mkRel 0x2915 RcA false.
(** symbol.rs:1128 *)
Definition SYM_RIGHTWARDS_TWO_HEADED_ARROW_WITH_TAIL : rel := mkRel 0x2916 RcA false.
(** symbol.rs:1129 *)
Definition SYM_RIGHTWARDS_TWO_HEADED_ARROW_WITH_TAIL_WITH_VERTICAL_STROKE : rel := mkRel 0x2917 RcA false.
(** symbol.rs:1131 *)
Definition SYM_RIGHTWARDS_TWO_HEADED_ARROW_WITH_TAIL_WITH_DOUBLE_VERTICAL_STROKE : rel := mkRel 0x2918 RcA false.
(** symbol.rs:1134 *)
Definition SYM_LEFTWARDS_ARROW_TAIL : rel := mkRel 0x2919 RcA false.
(** symbol.rs:1135 *)
Definition SYM_RIGHTWARDS_ARROW_TAIL : rel := mkRel 0x291a RcA false.
(** symbol.rs:1136 *)
Definition SYM_LEFTWARDS_DOUBLE_ARROW_TAIL : rel := mkRel 0x291b RcA false.
(** symbol.rs:1137 *)
Definition SYM_RIGHTWARDS_DOUBLE_ARROW_TAIL : rel := mkRel 0x291c RcA false.
(** symbol.rs:1139 *)
Definition SYM_LEFTWARDS_ARROW_TO_BLACK_DIAMOND : rel := mkRel 0x291d RcA false.
(** symbol.rs:1140 *)
Definition SYM_RIGHTWARDS_ARROW_TO_BLACK_DIAMOND : rel := mkRel 0x291e RcA false.
(** symbol.rs:1141 *)
Definition SYM_LEFTWARDS_ARROW_FROM_BAR_TO_BLACK_DIAMOND : rel := mkRel 0x291f RcA false.
(** symbol.rs:1142 *)
Definition SYM_RIGHTWARDS_ARROW_FROM_BAR_TO_BLACK_DIAMOND : rel := mkRel 0x2920 RcA false.
(** symbol.rs:1143 *)
Definition SYM_NORTH_WEST_AND_SOUTH_EAST_ARROW : rel := mkRel 0x2921 RcDefault false.
(** symbol.rs:1144 *)
Definition SYM_NORTH_EAST_AND_SOUTH_WEST_ARROW : rel := mkRel 0x2922 RcDefault false.
(** symbol.rs:1145 *)
Definition SYM_NORTH_WEST_ARROW_WITH_HOOK : rel := mkRel 0x2923 RcDefault false.
(** symbol.rs:1146 *)
Definition SYM_NORTH_EAST_ARROW_WITH_HOOK : rel := mkRel 0x2924 RcDefault false.
(** symbol.rs:1147 *)
Definition SYM_SOUTH_EAST_ARROW_WITH_HOOK : rel := mkRel 0x2925 RcDefault false.
(** symbol.rs:1148 *)
Definition SYM_SOUTH_WEST_ARROW_WITH_HOOK : rel := mkRel 0x2926 RcDefault false.
(** symbol.rs:1150 *)
Definition SYM_NORTH_WEST_ARROW_AND_NORTH_EAST_ARROW : rel := mkRel 0x2927 RcDefault false.
(** symbol.rs:1151 *)
Definition SYM_NORTH_EAST_ARROW_AND_SOUTH_EAST_ARROW : rel := mkRel 0x2928 RcDefault false.
(** symbol.rs:1152 *)
Definition SYM_SOUTH_EAST_ARROW_AND_SOUTH_WEST_ARROW : rel := mkRel 0x2929 RcDefault false.
(** symbol.rs:1153 *)
Definition SYM_SOUTH_WEST_ARROW_AND_NORTH_WEST_ARROW : rel := mkRel 0x292a RcDefault false.
(** symbol.rs:1154 *)
Definition SYM_RISING_DIAGONAL_CROSSING_FALLING_DIAGONAL : rel := mkRel 0x292b RcDefault false.
(** symbol.rs:1155 *)
Definition SYM_FALLING_DIAGONAL_CROSSING_RISING_DIAGONAL : rel := mkRel 0x292c RcDefault false.
(** symbol.rs:1156 *)
Definition SYM_SOUTH_EAST_ARROW_CROSSING_NORTH_EAST_ARROW : rel := mkRel 0x292d RcDefault false.
(** symbol.rs:1157 *)
Definition SYM_NORTH_EAST_ARROW_CROSSING_SOUTH_EAST_ARROW : rel := mkRel 0x292e RcDefault false.
(** symbol.rs:1158 *)
Definition SYM_FALLING_DIAGONAL_CROSSING_NORTH_EAST_ARROW : rel := mkRel 0x292f RcDefault false.
(** symbol.rs:1159 *)
Definition SYM_RISING_DIAGONAL_CROSSING_SOUTH_EAST_ARROW : rel := mkRel 0x2930 RcDefault false.
(** symbol.rs:1160 *)
Definition SYM_NORTH_EAST_ARROW_CROSSING_NORTH_WEST_ARROW : rel := mkRel 0x2931 RcDefault false.
(** symbol.rs:1161 *)
Definition SYM_NORTH_WEST_ARROW_CROSSING_NORTH_EAST_ARROW : rel := mkRel 0x2932 RcDefault false.
(** symbol.rs:1163 *)
Definition SYM_WAVE_ARROW_POINTING_DIRECTLY_RIGHT : rel := mkRel 0x2933 RcDefault false.
(** symbol.rs:1164 *)
Definition SYM_ARROW_POINTING_RIGHTWARDS_THEN_CURVING_UPWARDS : rel := mkRel 0x2934 RcA false.
(** symbol.rs:1165 *)
Definition SYM_ARROW_POINTING_RIGHTWARDS_THEN_CURVING_DOWNWARDS : rel := mkRel 0x2935 RcA false.
(** symbol.rs:1166 *)
Definition SYM_ARROW_POINTING_DOWNWARDS_THEN_CURVING_LEFTWARDS : rel := mkRel 0x2936 RcA false.
(** symbol.rs:1167 *)
Definition SYM_ARROW_POINTING_DOWNWARDS_THEN_CURVING_RIGHTWARDS : rel := mkRel 0x2937 RcA false.
(** symbol.rs:1168 *)
Definition SYM_RIGHT_SIDE_ARC_CLOCKWISE_ARROW : rel := mkRel 0x2938 RcDefault false.
(** symbol.rs:1169 *)
Definition SYM_LEFT_SIDE_ARC_ANTICLOCKWISE_ARROW : rel := mkRel 0x2939 RcDefault false.
(** symbol.rs:1170 *)
Definition SYM_TOP_ARC_ANTICLOCKWISE_ARROW : rel := mkRel 0x293a RcDefault false.
(** symbol.rs:1171 *)
Definition SYM_BOTTOM_ARC_ANTICLOCKWISE_ARROW : rel := mkRel 0x293b RcDefault false.
(** symbol.rs:1172 *)
Definition SYM_TOP_ARC_CLOCKWISE_ARROW_WITH_MINUS : rel := mkRel 0x293c RcDefault false.
(** symbol.rs:1173 *)
Definition SYM_TOP_ARC_ANTICLOCKWISE_ARROW_WITH_PLUS : rel := mkRel 0x293d RcDefault false.
(** symbol.rs:1174 *)
Definition SYM_LOWER_RIGHT_SEMICIRCULAR_CLOCKWISE_ARROW : rel := mkRel 0x293e RcDefault false.
(** symbol.rs:1175 *)
Definition SYM_LOWER_LEFT_SEMICIRCULAR_ANTICLOCKWISE_ARROW : rel := mkRel 0x293f RcDefault false.
(** symbol.rs:1176 *)
Definition SYM_ANTICLOCKWISE_CLOSED_CIRCLE_ARROW : rel := mkRel 0x2940 RcDefault false.
(** symbol.rs:1177 *)
Definition SYM_CLOCKWISE_CLOSED_CIRCLE_ARROW : rel := mkRel 0x2941 RcDefault false.
(** symbol.rs:1179 *)
Definition SYM_RIGHTWARDS_ARROW_ABOVE_SHORT_LEFTWARDS_ARROW : rel := mkRel 0x2942 RcA false.
(** symbol.rs:1180 *)
Definition SYM_LEFTWARDS_ARROW_ABOVE_SHORT_RIGHTWARDS_ARROW : rel := mkRel 0x2943 RcA false.
(** symbol.rs:1181 *)
Definition SYM_SHORT_RIGHTWARDS_ARROW_ABOVE_LEFTWARDS_ARROW : rel := mkRel 0x2944 RcA false.
(** symbol.rs:1182 *)
Definition SYM_RIGHTWARDS_ARROW_WITH_PLUS_BELOW : rel := mkRel 0x2945 RcA false.
(** symbol.rs:1183 *)
Definition SYM_LEFTWARDS_ARROW_WITH_PLUS_BELOW : rel := mkRel 0x2946 RcA false.
(** symbol.rs:1184 *)
Definition SYM_RIGHTWARDS_ARROW_THROUGH_X : rel := mkRel 0x2947 RcA false.
(** symbol.rs:1185 *)
Definition SYM_LEFT_RIGHT_ARROW_THROUGH_SMALL_CIRCLE : rel := mkRel 0x2948 RcA false.
(** symbol.rs:1186 *)
Definition SYM_UPWARDS_TWO_HEADED_ARROW_FROM_SMALL_CIRCLE : rel := mkRel 0x2949 RcA false.
(** symbol.rs:1188 *)
Definition SYM_LEFT_BARB_UP_RIGHT_BARB_DOWN_HARPOON : rel := mkRel 0x294a RcA false.
(** symbol.rs:1189 *)
Definition SYM_LEFT_BARB_DOWN_RIGHT_BARB_UP_HARPOON : rel := mkRel 0x294b RcA false.
(** symbol.rs:1190 *)
Definition SYM_UP_BARB_RIGHT_DOWN_BARB_LEFT_HARPOON : rel := mkRel 0x294c RcA false.
(** symbol.rs:1191 *)
Definition SYM_UP_BARB_LEFT_DOWN_BARB_RIGHT_HARPOON : rel := mkRel 0x294d RcA false.
(** symbol.rs:1192 *)
Definition SYM_LEFT_BARB_UP_RIGHT_BARB_UP_HARPOON : rel := mkRel 0x294e RcA false.
(** symbol.rs:1193 *)
Definition SYM_UP_BARB_RIGHT_DOWN_BARB_RIGHT_HARPOON : rel := mkRel 0x294f RcA false.
(** symbol.rs:1194 *)
Definition SYM_LEFT_BARB_DOWN_RIGHT_BARB_DOWN_HARPOON : rel := mkRel 0x2950 RcA false.
(** symbol.rs:1195 *)
Definition SYM_UP_BARB_LEFT_DOWN_BARB_LEFT_HARPOON : rel := mkRel 0x2951 RcA false.
(** symbol.rs:1197 *)
Definition SYM_LEFTWARDS_HARPOON_WITH_BARB_UP_TO_BAR : rel := mkRel 0x2952 RcA false.
(** symbol.rs:1198 *)
Definition SYM_RIGHTWARDS_HARPOON_WITH_BARB_UP_TO_BAR : rel := mkRel 0x2953 RcA false.
(** symbol.rs:1199 *)
Definition SYM_UPWARDS_HARPOON_WITH_BARB_RIGHT_TO_BAR : rel := mkRel 0x2954 RcA false.
(** symbol.rs:1200 *)
Definition SYM_DOWNWARDS_HARPOON_WITH_BARB_RIGHT_TO_BAR : rel := mkRel 0x2955 RcA false.
(** symbol.rs:1201 *)
Definition SYM_LEFTWARDS_HARPOON_WITH_BARB_DOWN_TO_BAR : rel := mkRel 0x2956 RcA false.
(** symbol.rs:1202 *)
Definition SYM_RIGHTWARDS_HARPOON_WITH_BARB_DOWN_TO_BAR : rel := mkRel 0x2957 RcA false.
(** symbol.rs:1203 *)
Definition SYM_UPWARDS_HARPOON_WITH_BARB_LEFT_TO_BAR : rel := mkRel 0x2958 RcA false.
(** symbol.rs:1204 *)
Definition SYM_DOWNWARDS_HARPOON_WITH_BARB_LEFT_TO_BAR : rel := mkRel 0x2959 RcA false.
(** symbol.rs:1205 *)
Definition SYM_LEFTWARDS_HARPOON_WITH_BARB_UP_FROM_BAR : rel := mkRel 0x295a RcA false.
(** symbol.rs:1206 *)
Definition SYM_RIGHTWARDS_HARPOON_WITH_BARB_UP_FROM_BAR : rel := mkRel 0x295b RcA false.
(** symbol.rs:1207 *)
Definition SYM_UPWARDS_HARPOON_WITH_BARB_RIGHT_FROM_BAR : rel := mkRel 0x295c RcA false.
(** symbol.rs:1208 *)
Definition SYM_DOWNWARDS_HARPOON_WITH_BARB_RIGHT_FROM_BAR : rel := mkRel 0x295d RcA false.
(** symbol.rs:1209 *)
Definition SYM_LEFTWARDS_HARPOON_WITH_BARB_DOWN_FROM_BAR : rel := mkRel 0x295e RcA false.
(** symbol.rs:1210 *)
Definition SYM_RIGHTWARDS_HARPOON_WITH_BARB_DOWN_FROM_BAR : rel := mkRel 0x295f RcA false.
(** symbol.rs:1211 *)
Definition SYM_UPWARDS_HARPOON_WITH_BARB_LEFT_FROM_BAR : rel := mkRel 0x2960 RcA false.
(** symbol.rs:1212 *)
Definition SYM_DOWNWARDS_HARPOON_WITH_BARB_LEFT_FROM_BAR : rel := mkRel 0x2961 RcA false.
(** symbol.rs:1214 *)
Definition SYM_LEFTWARDS_HARPOON_WITH_BARB_UP_ABOVE_LEFTWARDS_HARPOON_WITH_BARB_DOWN : rel := mkRel 0x2962 RcA false.
(** symbol.rs:1216 *)
Definition SYM_UPWARDS_HARPOON_WITH_BARB_LEFT_BESIDE_UPWARDS_HARPOON_WITH_BARB_RIGHT : rel := mkRel 0x2963 RcA false.
(** symbol.rs:1218 *)
Definition SYM_RIGHTWARDS_HARPOON_WITH_BARB_UP_ABOVE_RIGHTWARDS_HARPOON_WITH_BARB_DOWN : rel := mkRel 0x2964 RcA false.
(** symbol.rs:1220 *)
Definition SYM_DOWNWARDS_HARPOON_WITH_BARB_LEFT_BESIDE_DOWNWARDS_HARPOON_WITH_BARB_RIGHT : rel := mkRel 0x2965 RcA false.
(** symbol.rs:1222 *)
Definition SYM_LEFTWARDS_HARPOON_WITH_BARB_UP_ABOVE_RIGHTWARDS_HARPOON_WITH_BARB_UP : rel := mkRel 0x2966 RcA false.
(** symbol.rs:1224 *)
Definition SYM_LEFTWARDS_HARPOON_WITH_BARB_DOWN_ABOVE_RIGHTWARDS_HARPOON_WITH_BARB_DOWN : rel := mkRel 0x2967 RcA false.
(** symbol.rs:1226 *)
Definition SYM_RIGHTWARDS_HARPOON_WITH_BARB_UP_ABOVE_LEFTWARDS_HARPOON_WITH_BARB_UP : rel := mkRel 0x2968 RcA false.
(** symbol.rs:1228 *)
Definition SYM_RIGHTWARDS_HARPOON_WITH_BARB_DOWN_ABOVE_LEFTWARDS_HARPOON_WITH_BARB_DOWN : rel := mkRel 0x2969 RcA false.
(** symbol.rs:1230 *)
Definition SYM_LEFTWARDS_HARPOON_WITH_BARB_UP_ABOVE_LONG_DASH : rel := mkRel 0x296a RcA false.
(** symbol.rs:1231 *)
Definition SYM_LEFTWARDS_HARPOON_WITH_BARB_DOWN_BELOW_LONG_DASH : rel := mkRel 0x296b RcA false.
(** symbol.rs:1232 *)
Definition SYM_RIGHTWARDS_HARPOON_WITH_BARB_UP_ABOVE_LONG_DASH : rel := mkRel 0x296c RcA false.
(** symbol.rs:1233 *)
Definition SYM_RIGHTWARDS_HARPOON_WITH_BARB_DOWN_BELOW_LONG_DASH : rel := mkRel 0x296d RcA false.
(** symbol.rs:1234 *)
Definition SYM_UPWARDS_HARPOON_WITH_BARB_LEFT_BESIDE_DOWNWARDS_HARPOON_WITH_BARB_RIGHT : rel := mkRel 0x296e RcA false.
(** symbol.rs:1236 *)
Definition SYM_DOWNWARDS_HARPOON_WITH_BARB_LEFT_BESIDE_UPWARDS_HARPOON_WITH_BARB_RIGHT : rel := mkRel 0x296f RcA false.
(** symbol.rs:1239 *)
Definition SYM_RIGHT_DOUBLE_ARROW_WITH_ROUNDED_HEAD : rel := mkRel 0x2970 RcA false.
(** symbol.rs:1241 *)
Definition SYM_EQUALS_SIGN_ABOVE_RIGHTWARDS_ARROW : rel := mkRel 0x2971 RcA false.
(** symbol.rs:1242 *)
Definition SYM_TILDE_OPERATOR_ABOVE_RIGHTWARDS_ARROW : rel := mkRel 0x2972 RcA false.
(** symbol.rs:1243 *)
Definition SYM_LEFTWARDS_ARROW_ABOVE_TILDE_OPERATOR : rel := mkRel 0x2973 RcA false.
(** symbol.rs:1244 *)
Definition SYM_RIGHTWARDS_ARROW_ABOVE_TILDE_OPERATOR : rel := mkRel 0x2974 RcA false.
(** symbol.rs:1245 *)
Definition SYM_RIGHTWARDS_ARROW_ABOVE_ALMOST_EQUAL_TO : rel := mkRel 0x2975 RcA false.
(** symbol.rs:1246 *)
Definition SYM_LESS_THAN_ABOVE_LEFTWARDS_ARROW : rel := mkRel 0x2976 RcDefault false.
(** symbol.rs:1247 *)
Definition SYM_LEFTWARDS_ARROW_THROUGH_LESS_THAN : rel := mkRel 0x2977 RcDefault false.
(** symbol.rs:1248 *)
Definition SYM_GREATER_THAN_ABOVE_RIGHTWARDS_ARROW : rel := mkRel 0x2978 RcDefault false.
(** symbol.rs:1249 *)
Definition SYM_SUBSET_ABOVE_RIGHTWARDS_ARROW : rel := mkRel 0x2979 RcDefault false.
(** symbol.rs:1250 *)
Definition SYM_LEFTWARDS_ARROW_THROUGH_SUBSET : rel := mkRel 0x297a RcDefault false.
(** symbol.rs:1251 *)
Definition SYM_SUPERSET_ABOVE_LEFTWARDS_ARROW : rel := mkRel 0x297b RcDefault false.
(** symbol.rs:1253 *)
Definition SYM_LEFT_FISH_TAIL : rel := mkRel 0x297c RcA false.
(** symbol.rs:1254 *)
Definition SYM_RIGHT_FISH_TAIL : rel := mkRel 0x297d RcA false.
(** symbol.rs:1255 *)
Definition SYM_UP_FISH_TAIL : rel := mkRel 0x297e RcA false.
(** symbol.rs:1256 *)
Definition SYM_DOWN_FISH_TAIL : rel := mkRel 0x297f RcA false.
(** symbol.rs:1261 *)
Definition SYM_TRIPLE_VERTICAL_BAR_DELIMITER : ord_like := mkOrd 0x2980 OcFG false.
(** symbol.rs:1262 *)
Definition SYM_Z_NOTATION_TYPE_COLON : rel := mkRel 0x2982 RcDefault false.
(** symbol.rs:1264 *)
Definition SYM_LEFT_WHITE_CURLY_BRACKET : ord_like := mkOrd 0x2983 OcF false.
(** symbol.rs:1265 *)
Definition SYM_RIGHT_WHITE_CURLY_BRACKET : ord_like := mkOrd 0x2984 OcG false.
(** symbol.rs:1266 *)
Definition SYM_LEFT_WHITE_PARENTHESIS : ord_like := mkOrd 0x2985 OcF false.
(** symbol.rs:1267 *)
Definition SYM_RIGHT_WHITE_PARENTHESIS : ord_like := mkOrd 0x2986 OcG false.
(** symbol.rs:1268 *)
Definition SYM_Z_NOTATION_LEFT_IMAGE_BRACKET : ord_like := mkOrd 0x2987 OcF false.
(** symbol.rs:1269 *)
Definition SYM_Z_NOTATION_RIGHT_IMAGE_BRACKET : ord_like := mkOrd 0x2988 OcG false.
(** symbol.rs:1270 *)
Definition SYM_Z_NOTATION_LEFT_BINDING_BRACKET : ord_like := mkOrd 0x2989 OcF false.
(** symbol.rs:1271 *)
Definition SYM_Z_NOTATION_RIGHT_BINDING_BRACKET : ord_like := mkOrd 0x298a OcG false.
(** symbol.rs:1272 *)
Definition SYM_LEFT_SQUARE_BRACKET_WITH_UNDERBAR : ord_like := mkOrd 0x298b OcF false.
(** symbol.rs:1273 *)
Definition SYM_RIGHT_SQUARE_BRACKET_WITH_UNDERBAR : ord_like := mkOrd 0x298c OcG false.
(** symbol.rs:1275 *)
Definition SYM_LEFT_SQUARE_BRACKET_WITH_TICK_IN_TOP_CORNER : ord_like := mkOrd 0x298d OcF false.
(** symbol.rs:1276 *)
Definition SYM_RIGHT_SQUARE_BRACKET_WITH_TICK_IN_BOTTOM_CORNER : ord_like := mkOrd 0x298e OcG false.
(** symbol.rs:1278 *)
Definition SYM_LEFT_SQUARE_BRACKET_WITH_TICK_IN_BOTTOM_CORNER : ord_like := mkOrd 0x298f OcF false.
(** symbol.rs:1280 *)
Definition SYM_RIGHT_SQUARE_BRACKET_WITH_TICK_IN_TOP_CORNER : ord_like := mkOrd 0x2990 OcG false.
(** symbol.rs:1282 *)
Definition SYM_LEFT_ANGLE_BRACKET_WITH_DOT : ord_like := mkOrd 0x2991 OcF false.
(** symbol.rs:1283 *)
Definition SYM_RIGHT_ANGLE_BRACKET_WITH_DOT : ord_like := mkOrd 0x2992 OcG false.
(** symbol.rs:1284 *)
Definition SYM_LEFT_ARC_LESS_THAN_BRACKET : ord_like := mkOrd 0x2993 OcF false.
(** symbol.rs:1285 *)
Definition SYM_RIGHT_ARC_GREATER_THAN_BRACKET : ord_like := mkOrd 0x2994 OcG false.
(** symbol.rs:1286 *)
Definition SYM_DOUBLE_LEFT_ARC_GREATER_THAN_BRACKET : ord_like := mkOrd 0x2995 OcF false.
(** symbol.rs:1287 *)
Definition SYM_DOUBLE_RIGHT_ARC_LESS_THAN_BRACKET : ord_like := mkOrd 0x2996 OcG false.
(** symbol.rs:1288 *)
Definition SYM_LEFT_BLACK_TORTOISE_SHELL_BRACKET : ord_like := mkOrd 0x2997 OcF false.
(** symbol.rs:1289 *)
Definition SYM_RIGHT_BLACK_TORTOISE_SHELL_BRACKET : ord_like := mkOrd 0x2998 OcG false.
(** symbol.rs:1291 *)
Definition SYM_CIRCLE_WITH_HORIZONTAL_BAR : superchar := sc_from_char 0x29b5.
(** symbol.rs:1292 *)
Definition SYM_CIRCLED_VERTICAL_BAR : rel := mkRel 0x29b6 RcDefault false.
(** symbol.rs:1293 *)
Definition SYM_CIRCLED_PARALLEL : rel := mkRel 0x29b7 RcDefault false.
(** symbol.rs:1294 *)
Definition SYM_CIRCLED_REVERSE_SOLIDUS : bin := mkBin 0x29b8 BcB false.
(** symbol.rs:1295 *)
Definition SYM_CIRCLED_PERPENDICULAR : rel := mkRel 0x29b9 RcDefault false.
(** symbol.rs:1297 *)
Definition SYM_CIRCLED_LESS_THAN : rel := mkRel 0x29c0 RcDefault false.
(** symbol.rs:1298 *)
Definition SYM_CIRCLED_GREATER_THAN : rel := mkRel 0x29c1 RcDefault false.
(** symbol.rs:1300 *)
Definition SYM_SQUARED_RISING_DIAGONAL_SLASH : bin := mkBin 0x29c4 BcB false.
(** symbol.rs:1301 *)
Definition SYM_SQUARED_FALLING_DIAGONAL_SLASH : bin := mkBin 0x29c5 BcB false.
(** symbol.rs:1302 *)
Definition SYM_SQUARED_ASTERISK : op := mkOp 0x29c6 PcC false.
(** symbol.rs:1303 *)
Definition SYM_SQUARED_SMALL_CIRCLE : op := mkOp 0x29c7 PcC false.
(** symbol.rs:1304 *)
Definition SYM_SQUARED_SQUARE : op := mkOp 0x29c8 PcC false.
(** symbol.rs:1306 *)
Definition SYM_LEFT_WIGGLY_FENCE : ord_like := mkOrd 0x29d8 OcF false.
(** symbol.rs:1307 *)
Definition SYM_RIGHT_WIGGLY_FENCE : ord_like := mkOrd 0x29d9 OcG false.
(** symbol.rs:1308 *)
Definition SYM_LEFT_DOUBLE_WIGGLY_FENCE : ord_like := mkOrd 0x29da OcF false.
(** symbol.rs:1309 *)
Definition SYM_RIGHT_DOUBLE_WIGGLY_FENCE : ord_like := mkOrd 0x29db OcG false.
(** symbol.rs:1311 *)
Definition SYM_RIGHT_TRIANGLE_ABOVE_LEFT_TRIANGLE : rel := mkRel 0x29ce RcDefault false.
(** symbol.rs:1312 *)
Definition SYM_LEFT_TRIANGLE_BESIDE_VERTICAL_BAR : rel := mkRel 0x29cf RcDefault false.
(** symbol.rs:1313 *)
Definition SYM_VERTICAL_BAR_BESIDE_RIGHT_TRIANGLE : rel := mkRel 0x29d0 RcDefault false.
(** symbol.rs:1315 *)
Definition SYM_BOWTIE_WITH_LEFT_HALF_BLACK : rel := mkRel 0x29d1 RcDefault false.
(** symbol.rs:1316 *)
Definition SYM_BOWTIE_WITH_RIGHT_HALF_BLACK : rel := mkRel 0x29d2 RcDefault false.
(** symbol.rs:1317 *)
Definition SYM_BLACK_BOWTIE : rel := mkRel 0x29d3 RcDefault false.
(** symbol.rs:1318 *)
Definition SYM_TIMES_WITH_LEFT_HALF_BLACK : op := mkOp 0x29d4 PcC false.
(** symbol.rs:1319 *)
Definition SYM_TIMES_WITH_RIGHT_HALF_BLACK : op := mkOp 0x29d5 PcC false.
(** symbol.rs:1321 *)
Definition SYM_DOUBLE_ENDED_MULTIMAP : rel := mkRel 0x29df RcDefault false.
(** symbol.rs:1322 *)
Definition SYM_SQUARE_WITH_CONTOURED_OUTLINE : rel := mkRel 0x29e0 RcDefault false.
(** symbol.rs:1323 *)
Definition SYM_INCREASES_AS : rel := mkRel 0x29e1 RcDefault false.
(** symbol.rs:1324 *)
Definition SYM_SHUFFLE_PRODUCT : op := mkOp 0x29e2 PcC false.
(** symbol.rs:1326 *)
Definition SYM_EQUALS_SIGN_AND_SLANTED_PARALLEL : rel := mkRel 0x29e3 RcDefault false.
(** symbol.rs:1327 *)
Definition SYM_EQUALS_SIGN_AND_SLANTED_PARALLEL_WITH_TILDE_ABOVE : rel := mkRel 0x29e4 RcDefault false.
(** symbol.rs:1329 *)
Definition SYM_IDENTICAL_TO_AND_SLANTED_PARALLEL : rel := mkRel 0x29e5 RcDefault false.
(** symbol.rs:1330 *)
Definition SYM_GLEICH_STARK : rel := mkRel 0x29e6 RcDefault false.
(** symbol.rs:1332 *)
Definition SYM_BLACK_LOZENGE : N := 0x29eb.
(** symbol.rs:1334 *)
Definition SYM_RULE_DELAYED : rel := mkRel 0x29f4 RcDefault false.
(** symbol.rs:1335 *)
Definition SYM_REVERSE_SOLIDUS_OPERATOR : bin := mkBin 0x29f5 BcB false.
(** symbol.rs:1336 *)
Definition SYM_SOLIDUS_WITH_OVERBAR : bin := mkBin 0x29f6 BcB false.
(** symbol.rs:1337 *)
Definition SYM_REVERSE_SOLIDUS_WITH_HORIZONTAL_STROKE : bin := mkBin 0x29f7 BcB false.
(** symbol.rs:1339 *)
Definition SYM_BIG_SOLIDUS : bin := mkBin 0x29f8 BcB false.
(** symbol.rs:1340 *)
Definition SYM_BIG_REVERSE_SOLIDUS : bin := mkBin 0x29f9 BcB false.
(** symbol.rs:1342 *)
Definition SYM_DOUBLE_PLUS : bin := mkBin 0x29fa BcB false.
(** symbol.rs:1343 *)
Definition SYM_TRIPLE_PLUS : bin := mkBin 0x29fb BcB false.
(** symbol.rs:1345 *)
Definition SYM_LEFT_POINTING_CURVED_ANGLE_BRACKET : ord_like := mkOrd 0x29fc OcF false.
(** symbol.rs:1346 *)
Definition SYM_RIGHT_POINTING_CURVED_ANGLE_BRACKET : ord_like := mkOrd 0x29fd OcG false.
(** symbol.rs:1351 *)
Definition SYM_N_ARY_CIRCLED_DOT_OPERATOR : op := mkOp 0x2a00 PcJ false.
(** symbol.rs:1352 *)
Definition SYM_N_ARY_CIRCLED_PLUS_OPERATOR : op := mkOp 0x2a01 PcJ false.
(** symbol.rs:1353 *)
Definition SYM_N_ARY_CIRCLED_TIMES_OPERATOR : op := mkOp 0x2a02 PcJ false.
(** symbol.rs:1354 *)
Definition SYM_N_ARY_UNION_OPERATOR_WITH_DOT : op := mkOp 0x2a03 PcJ false.
(** symbol.rs:1355 *)
Definition SYM_N_ARY_UNION_OPERATOR_WITH_PLUS : op := mkOp 0x2a04 PcJ false.
(** symbol.rs:1356 *)
Definition SYM_N_ARY_SQUARE_INTERSECTION_OPERATOR : op := mkOp 0x2a05 PcJ false.
(** symbol.rs:1357 *)
Definition SYM_N_ARY_SQUARE_UNION_OPERATOR : op := mkOp 0x2a06 PcJ false.
(** symbol.rs:1358 *)
Definition SYM_TWO_LOGICAL_AND_OPERATOR : op := mkOp 0x2a07 PcJ false.
(** symbol.rs:1359 *)
Definition SYM_TWO_LOGICAL_OR_OPERATOR : op := mkOp 0x2a08 PcJ false.
(** symbol.rs:1360 *)
Definition SYM_N_ARY_TIMES_OPERATOR : op := mkOp 0x2a09 PcJ false.
(** symbol.rs:1362 *)
Definition SYM_MODULO_TWO_SUM : op := mkOp 0x2a0a PcJ false.
(** symbol.rs:1363 *)
Definition SYM_SUMMATION_WITH_INTEGRAL : op := mkOp 0x2a0b PcH false.
(** symbol.rs:1364 *)
Definition SYM_QUADRUPLE_INTEGRAL_OPERATOR : op := mkOp 0x2a0c PcH false.
(** symbol.rs:1365 *)
Definition SYM_FINITE_PART_INTEGRAL : op := mkOp 0x2a0d PcH false.
(** symbol.rs:1366 *)
Definition SYM_INTEGRAL_WITH_DOUBLE_STROKE : op := mkOp 0x2a0e PcH false.
(** symbol.rs:1367 *)
Definition SYM_INTEGRAL_AVERAGE_WITH_SLASH : op := mkOp 0x2a0f PcH false.
(** symbol.rs:1368 *)
Definition SYM_CIRCULATION_FUNCTION : op := mkOp 0x2a10 PcH false.
(** symbol.rs:1369 *)
Definition SYM_ANTICLOCKWISE_INTEGRATION : op := mkOp 0x2a11 PcH false.
(** symbol.rs:1370 *)
Definition SYM_LINE_INTEGRATION_WITH_RECTANGULAR_PATH_AROUND_POLE : op := mkOp 0x2a12 PcH false.
(** symbol.rs:1371 *)
Definition SYM_LINE_INTEGRATION_WITH_SEMICIRCULAR_PATH_AROUND_POLE : op := mkOp 0x2a13 PcH false.
(** symbol.rs:1372 *)
Definition SYM_LINE_INTEGRATION_NOT_INCLUDING_THE_POLE : op := mkOp 0x2a14 PcH false.
(** symbol.rs:1373 *)
Definition SYM_INTEGRAL_AROUND_A_POINT_OPERATOR : op := mkOp 0x2a15 PcH false.
(** symbol.rs:1374 *)
Definition SYM_QUATERNION_INTEGRAL_OPERATOR : op := mkOp 0x2a16 PcH false.
(** symbol.rs:1375 *)
Definition SYM_INTEGRAL_WITH_LEFTWARDS_ARROW_WITH_HOOK : op := mkOp 0x2a17 PcH false.
(** symbol.rs:1376 *)
Definition SYM_INTEGRAL_WITH_TIMES_SIGN : op := mkOp 0x2a18 PcH false.
(** symbol.rs:1377 *)
Definition SYM_INTEGRAL_WITH_INTERSECTION : op := mkOp 0x2a19 PcH false.
(** symbol.rs:1378 *)
Definition SYM_INTEGRAL_WITH_UNION : op := mkOp 0x2a1a PcH false.
(** symbol.rs:1379 *)
Definition SYM_INTEGRAL_WITH_OVERBAR : op := mkOp 0x2a1b PcH false.
(** symbol.rs:1380 *)
Definition SYM_INTEGRAL_WITH_UNDERBAR : op := mkOp 0x2a1c PcH false.
(** symbol.rs:1382 *)
Definition SYM_JOIN : superchar := sc_from_char 0x2a1d.
(** symbol.rs:1383 *)
Definition SYM_LARGE_LEFT_TRIANGLE_OPERATOR : superchar := sc_from_char 0x2a1e.
(** symbol.rs:1388 *)
Definition SYM_PLUS_SIGN_WITH_SMALL_CIRCLE_ABOVE : bin := mkBin 0x2a22 BcB false.
(** symbol.rs:1389 *)
Definition SYM_PLUS_SIGN_WITH_CIRCUMFLEX_ACCENT_ABOVE : bin := mkBin 0x2a23 BcB false.
(** symbol.rs:1390 *)
Definition SYM_PLUS_SIGN_WITH_TILDE_ABOVE : bin := mkBin 0x2a24 BcB false.
(** symbol.rs:1391 *)
Definition SYM_PLUS_SIGN_WITH_DOT_BELOW : bin := mkBin 0x2a25 BcB false.
(** symbol.rs:1392 *)
Definition SYM_PLUS_SIGN_WITH_TILDE_BELOW : bin := mkBin 0x2a26 BcB false.
(** symbol.rs:1393 *)
Definition SYM_PLUS_SIGN_WITH_SUBSCRIPT_TWO : bin := mkBin 0x2a27 BcB false.
(** symbol.rs:1394 *)
Definition SYM_PLUS_SIGN_WITH_BLACK_TRIANGLE : bin := mkBin 0x2a28 BcB false.
(** symbol.rs:1395 *)
Definition SYM_MINUS_SIGN_WITH_COMMA_ABOVE : bin := mkBin 0x2a29 BcB false.
(** symbol.rs:1396 *)
Definition SYM_MINUS_SIGN_WITH_DOT_BELOW : bin := mkBin 0x2a2a BcB false.
(** symbol.rs:1397 *)
Definition SYM_MINUS_SIGN_WITH_FALLING_DOTS : bin := mkBin 0x2a2b BcB false.
(** symbol.rs:1398 *)
Definition SYM_MINUS_SIGN_WITH_RISING_DOTS : bin := mkBin 0x2a2c BcB false.
(** symbol.rs:1399 *)
Definition SYM_PLUS_SIGN_IN_LEFT_HALF_CIRCLE : bin := mkBin 0x2a2d BcB false.
(** symbol.rs:1400 *)
Definition SYM_PLUS_SIGN_IN_RIGHT_HALF_CIRCLE : bin := mkBin 0x2a2e BcB false.
(** symbol.rs:1402 *)
Definition SYM_VECTOR_OR_CROSS_PRODUCT : op := mkOp 0x2a2f PcC false.
(** symbol.rs:1403 *)
Definition SYM_MULTIPLICATION_SIGN_WITH_DOT_ABOVE : op := mkOp 0x2a30 PcC false.
(** symbol.rs:1404 *)
Definition SYM_MULTIPLICATION_SIGN_WITH_UNDERBAR : op := mkOp 0x2a31 PcC false.
(** symbol.rs:1405 *)
Definition SYM_SEMIDIRECT_PRODUCT_WITH_BOTTOM_CLOSED : op := mkOp 0x2a32 PcC false.
(** symbol.rs:1406 *)
Definition SYM_SMASH_PRODUCT : op := mkOp 0x2a33 PcC false.
(** symbol.rs:1407 *)
Definition SYM_MULTIPLICATION_SIGN_IN_LEFT_HALF_CIRCLE : op := mkOp 0x2a34 PcC false.
(** symbol.rs:1408 *)
Definition SYM_MULTIPLICATION_SIGN_IN_RIGHT_HALF_CIRCLE : op := mkOp 0x2a35 PcC false.
(** symbol.rs:1409 *)
Definition SYM_CIRCLED_MULTIPLICATION_SIGN_WITH_CIRCUMFLEX_ACCENT : op := mkOp 0x2a36 PcC false.
(** symbol.rs:1410 *)
Definition SYM_MULTIPLICATION_SIGN_IN_DOUBLE_CIRCLE : op := mkOp 0x2a37 PcC false.
(** symbol.rs:1411 *)
Definition SYM_CIRCLED_DIVISION_SIGN : bin := mkBin 0x2a38 BcB false.
(** symbol.rs:1413 *)
Definition SYM_PLUS_SIGN_IN_TRIANGLE : bin := mkBin 0x2a39 BcB false.
(** symbol.rs:1414 *)
Definition SYM_MINUS_SIGN_IN_TRIANGLE : bin := mkBin 0x2a3a BcB false.
(** symbol.rs:1415 *)
Definition SYM_MULTIPLICATION_SIGN_IN_TRIANGLE : op := mkOp 0x2a3b PcC false.
(** symbol.rs:1416 *)
Definition SYM_INTERIOR_PRODUCT : op := mkOp 0x2a3c PcC false.
(** symbol.rs:1417 *)
Definition SYM_RIGHTHAND_INTERIOR_PRODUCT : op := mkOp 0x2a3d PcC false.
(** symbol.rs:1418 *)
Definition SYM_Z_NOTATION_RELATIONAL_COMPOSITION : bin := mkBin 0x2a3e BcB false.
(** symbol.rs:1419 *)
Definition SYM_AMALGAMATION_OR_COPRODUCT : op := mkOp 0x2a3f PcC false.
(** symbol.rs:1420 *)
Definition SYM_INTERSECTION_WITH_DOT : bin := mkBin 0x2a40 BcB false.
(** symbol.rs:1421 *)
Definition SYM_UNION_WITH_MINUS_SIGN : bin := mkBin 0x2a41 BcB false.
(** symbol.rs:1422 *)
Definition SYM_UNION_WITH_OVERBAR : bin := mkBin 0x2a42 BcB false.
(** symbol.rs:1423 *)
Definition SYM_INTERSECTION_WITH_OVERBAR : bin := mkBin 0x2a43 BcB false.
(** symbol.rs:1424 *)
Definition SYM_INTERSECTION_WITH_LOGICAL_AND : bin := mkBin 0x2a44 BcB false.
(** symbol.rs:1425 *)
Definition SYM_UNION_WITH_LOGICAL_OR : bin := mkBin 0x2a45 BcB false.
(** symbol.rs:1426 *)
Definition SYM_UNION_ABOVE_INTERSECTION : bin := mkBin 0x2a46 BcB false.
(** symbol.rs:1427 *)
Definition SYM_INTERSECTION_ABOVE_UNION : bin := mkBin 0x2a47 BcB false.
(** symbol.rs:1428 *)
Definition SYM_UNION_ABOVE_BAR_ABOVE_INTERSECTION : bin := mkBin 0x2a48 BcB false.
(** symbol.rs:1429 *)
Definition SYM_INTERSECTION_ABOVE_BAR_ABOVE_UNION : bin := mkBin 0x2a49 BcB false.
(** symbol.rs:1430 *)
Definition SYM_UNION_BESIDE_AND_JOINED_WITH_UNION : bin := mkBin 0x2a4a BcB false.
(** symbol.rs:1431 *)
Definition SYM_INTERSECTION_BESIDE_AND_JOINED_WITH_INTERSECTION : bin := mkBin 0x2a4b BcB false.
(** symbol.rs:1432 *)
Definition SYM_CLOSED_UNION_WITH_SERIFS : bin := mkBin 0x2a4c BcB false.
(** symbol.rs:1433 *)
Definition SYM_CLOSED_INTERSECTION_WITH_SERIFS : bin := mkBin 0x2a4d BcB false.
(** symbol.rs:1434 *)
Definition SYM_DOUBLE_SQUARE_INTERSECTION : bin := mkBin 0x2a4e BcB false.
(** symbol.rs:1435 *)
Definition SYM_DOUBLE_SQUARE_UNION : bin := mkBin 0x2a4f BcB false.
(** symbol.rs:1436 *)
Definition SYM_CLOSED_UNION_WITH_SERIFS_AND_SMASH_PRODUCT : op := mkOp 0x2a50 PcC false.
(** symbol.rs:1437 *)
Definition SYM_LOGICAL_AND_WITH_DOT_ABOVE : bin := mkBin 0x2a51 BcB false.
(** symbol.rs:1438 *)
Definition SYM_LOGICAL_OR_WITH_DOT_ABOVE : bin := mkBin 0x2a52 BcB false.
(** symbol.rs:1439 *)
Definition SYM_DOUBLE_LOGICAL_AND : bin := mkBin 0x2a53 BcB false.
(** symbol.rs:1440 *)
Definition SYM_DOUBLE_LOGICAL_OR : bin := mkBin 0x2a54 BcB false.
(** symbol.rs:1441 *)
Definition SYM_TWO_INTERSECTING_LOGICAL_AND : bin := mkBin 0x2a55 BcB false.
(** symbol.rs:1442 *)
Definition SYM_TWO_INTERSECTING_LOGICAL_OR : bin := mkBin 0x2a56 BcB false.
(** symbol.rs:1443 *)
Definition SYM_SLOPING_LARGE_OR : bin := mkBin 0x2a57 BcB false.
(** symbol.rs:1444 *)
Definition SYM_SLOPING_LARGE_AND : bin := mkBin 0x2a58 BcB false.
(** symbol.rs:1445 *)
Definition SYM_LOGICAL_OR_OVERLAPPING_LOGICAL_AND : bin := mkBin 0x2a59 BcB false.
(** symbol.rs:1446 *)
Definition SYM_LOGICAL_AND_WITH_MIDDLE_STEM : bin := mkBin 0x2a5a BcB false.
(** symbol.rs:1447 *)
Definition SYM_LOGICAL_OR_WITH_MIDDLE_STEM : bin := mkBin 0x2a5b BcB false.
(** symbol.rs:1448 *)
Definition SYM_LOGICAL_AND_WITH_HORIZONTAL_DASH : bin := mkBin 0x2a5c BcB false.
(** symbol.rs:1449 *)
Definition SYM_LOGICAL_OR_WITH_HORIZONTAL_DASH : bin := mkBin 0x2a5d BcB false.
(** symbol.rs:1450 *)
Definition SYM_LOGICAL_AND_WITH_DOUBLE_OVERBAR : bin := mkBin 0x2a5e BcB false.
(** symbol.rs:1451 *)
Definition SYM_LOGICAL_AND_WITH_UNDERBAR : bin := mkBin 0x2a5f BcB false.
(** symbol.rs:1452 *)
Definition SYM_LOGICAL_AND_WITH_DOUBLE_UNDERBAR : bin := mkBin 0x2a60 BcB false.
(** symbol.rs:1454 *)
Definition SYM_LOGICAL_OR_WITH_DOUBLE_OVERBAR : bin := mkBin 0x2a62 BcB false.
(** symbol.rs:1455 *)
Definition SYM_LOGICAL_OR_WITH_DOUBLE_UNDERBAR : bin := mkBin 0x2a63 BcB false.
(** symbol.rs:1457 *)
Definition SYM_Z_NOTATION_DOMAIN_ANTIRESTRICTION : op := mkOp 0x2a64 PcC false.
(** symbol.rs:1458 *)
Definition SYM_Z_NOTATION_RANGE_ANTIRESTRICTION : op := mkOp 0x2a65 PcC false.
(** symbol.rs:1460 *)
Definition SYM_EQUALS_SIGN_WITH_DOT_BELOW : rel := mkRel 0x2a66 RcDefault false.
(** symbol.rs:1461 *)
Definition SYM_IDENTICAL_WITH_DOT_ABOVE : rel := mkRel 0x2a67 RcDefault false.
(** symbol.rs:1462 *)
Definition SYM_TRIPLE_HORIZONTAL_BAR_WITH_DOUBLE_VERTICAL_STROKE : rel := mkRel 0x2a68 RcDefault false.
(** symbol.rs:1464 *)
Definition SYM_TRIPLE_HORIZONTAL_BAR_WITH_TRIPLE_VERTICAL_STROKE : rel := mkRel 0x2a69 RcDefault false.
(** symbol.rs:1466 *)
Definition SYM_TILDE_OPERATOR_WITH_DOT_ABOVE : rel := mkRel 0x2a6a RcDefault false.
(** symbol.rs:1467 *)
Definition SYM_TILDE_OPERATOR_WITH_RISING_DOTS : rel := mkRel 0x2a6b RcDefault false.
(** symbol.rs:1468 *)
Definition SYM_SIMILAR_MINUS_SIMILAR : rel := mkRel 0x2a6c RcDefault false.
(** symbol.rs:1469 *)
Definition SYM_CONGRUENT_WITH_DOT_ABOVE : rel := mkRel 0x2a6d RcDefault false.
(** symbol.rs:1470 *)
Definition SYM_EQUALS_WITH_ASTERISK : rel := mkRel 0x2a6e RcDefault false.
(** symbol.rs:1471 *)
Definition SYM_ALMOST_EQUAL_TO_WITH_CIRCUMFLEX_ACCENT : rel := mkRel 0x2a6f RcDefault false.
(** symbol.rs:1472 *)
Definition SYM_APPROXIMATELY_EQUAL_OR_EQUAL_TO : rel := mkRel 0x2a70 RcDefault false.
(** symbol.rs:1473 *)
Definition SYM_EQUALS_SIGN_ABOVE_PLUS_SIGN : rel := mkRel 0x2a71 RcDefault false.
(** symbol.rs:1474 *)
Definition SYM_PLUS_SIGN_ABOVE_EQUALS_SIGN : rel := mkRel 0x2a72 RcDefault false.
(** symbol.rs:1475 *)
Definition SYM_EQUALS_SIGN_ABOVE_TILDE_OPERATOR : rel := mkRel 0x2a73 RcDefault false.
(** symbol.rs:1476 *)
Definition SYM_DOUBLE_COLON_EQUAL : rel := mkRel 0x2a74 RcDefault false.
(** symbol.rs:1477 *)
Definition SYM_TWO_CONSECUTIVE_EQUALS_SIGNS : rel := mkRel 0x2a75 RcDefault false.
(** symbol.rs:1478 *)
Definition SYM_THREE_CONSECUTIVE_EQUALS_SIGNS : rel := mkRel 0x2a76 RcDefault false.
(** symbol.rs:1479 *)
Definition SYM_EQUALS_SIGN_WITH_TWO_DOTS_ABOVE_AND_TWO_DOTS_BELOW : rel := mkRel 0x2a77 RcDefault false.
(** symbol.rs:1481 *)
Definition SYM_EQUIVALENT_WITH_FOUR_DOTS_ABOVE : rel := mkRel 0x2a78 RcDefault false.
(** symbol.rs:1482 *)
Definition SYM_LESS_THAN_WITH_CIRCLE_INSIDE : rel := mkRel 0x2a79 RcDefault false.
(** symbol.rs:1483 *)
Definition SYM_GREATER_THAN_WITH_CIRCLE_INSIDE : rel := mkRel 0x2a7a RcDefault false.
(** symbol.rs:1484 *)
Definition SYM_LESS_THAN_WITH_QUESTION_MARK_ABOVE : rel := mkRel 0x2a7b RcDefault false.
(** symbol.rs:1485 *)
Definition SYM_GREATER_THAN_WITH_QUESTION_MARK_ABOVE : rel := mkRel 0x2a7c RcDefault false.
(** symbol.rs:1486 *)
Definition SYM_LESS_THAN_OR_SLANTED_EQUAL_TO : rel := mkRel 0x2a7d RcDefault false.
(** symbol.rs:1487 *)
Definition SYM_GREATER_THAN_OR_SLANTED_EQUAL_TO : rel := mkRel 0x2a7e RcDefault false.
(** symbol.rs:1488 *)
Definition SYM_LESS_THAN_OR_SLANTED_EQUAL_TO_WITH_DOT_INSIDE : rel := mkRel 0x2a7f RcDefault false.
(** symbol.rs:1489 *)
Definition SYM_GREATER_THAN_OR_SLANTED_EQUAL_TO_WITH_DOT_INSIDE : rel := mkRel 0x2a80 RcDefault false.
(** symbol.rs:1491 *)
Definition SYM_LESS_THAN_OR_SLANTED_EQUAL_TO_WITH_DOT_ABOVE : rel := mkRel 0x2a81 RcDefault false.
(** symbol.rs:1492 *)
Definition SYM_GREATER_THAN_OR_SLANTED_EQUAL_TO_WITH_DOT_ABOVE : rel := mkRel 0x2a82 RcDefault false.
(** symbol.rs:1494 *)
Definition SYM_LESS_THAN_OR_SLANTED_EQUAL_TO_WITH_DOT_ABOVE_RIGHT : rel := mkRel 0x2a83 RcDefault false.
(** symbol.rs:1496 *)
Definition SYM_GREATER_THAN_OR_SLANTED_EQUAL_TO_WITH_DOT_ABOVE_LEFT : rel := mkRel 0x2a84 RcDefault false.
(** symbol.rs:1498 *)
Definition SYM_LESS_THAN_OR_APPROXIMATE : rel := mkRel 0x2a85 RcDefault false.
(** symbol.rs:1499 *)
Definition SYM_GREATER_THAN_OR_APPROXIMATE : rel := mkRel 0x2a86 RcDefault false.
(** symbol.rs:1500 *)
Definition SYM_LESS_THAN_AND_SINGLE_LINE_NOT_EQUAL_TO : rel := mkRel 0x2a87 RcDefault false.
(** symbol.rs:1501 *)
Definition SYM_GREATER_THAN_AND_SINGLE_LINE_NOT_EQUAL_TO : rel := mkRel 0x2a88 RcDefault false.
(** symbol.rs:1502 *)
Definition SYM_LESS_THAN_AND_NOT_APPROXIMATE : rel := mkRel 0x2a89 RcDefault false.
(** symbol.rs:1503 *)
Definition SYM_GREATER_THAN_AND_NOT_APPROXIMATE : rel := mkRel 0x2a8a RcDefault false.
(** symbol.rs:1504 *)
Definition SYM_LESS_THAN_ABOVE_DOUBLE_LINE_EQUAL_ABOVE_GREATER_THAN : rel := mkRel 0x2a8b RcDefault false.
(** symbol.rs:1506 *)
Definition SYM_GREATER_THAN_ABOVE_DOUBLE_LINE_EQUAL_ABOVE_LESS_THAN : rel := mkRel 0x2a8c RcDefault false.
(** symbol.rs:1508 *)
Definition SYM_LESS_THAN_ABOVE_SIMILAR_OR_EQUAL : rel := mkRel 0x2a8d RcDefault false.
(** symbol.rs:1509 *)
Definition SYM_GREATER_THAN_ABOVE_SIMILAR_OR_EQUAL : rel := mkRel 0x2a8e RcDefault false.
(** symbol.rs:1510 *)
Definition SYM_LESS_THAN_ABOVE_SIMILAR_ABOVE_GREATER_THAN : rel := mkRel 0x2a8f RcDefault false.
(** symbol.rs:1511 *)
Definition SYM_GREATER_THAN_ABOVE_SIMILAR_ABOVE_LESS_THAN : rel := mkRel 0x2a90 RcDefault false.
(** symbol.rs:1512 *)
Definition SYM_LESS_THAN_ABOVE_GREATER_THAN_ABOVE_DOUBLE_LINE_EQUAL : rel := mkRel 0x2a91 RcDefault false.
(** symbol.rs:1514 *)
Definition SYM_GREATER_THAN_ABOVE_LESS_THAN_ABOVE_DOUBLE_LINE_EQUAL : rel := mkRel 0x2a92 RcDefault false.
(** symbol.rs:1516 *)
Definition SYM_LESS_THAN_ABOVE_SLANTED_EQUAL_ABOVE_GREATER_THAN_ABOVE_SLANTED_EQUAL : rel := mkRel 0x2a93 RcDefault false.
(** symbol.rs:1518 *)
Definition SYM_GREATER_THAN_ABOVE_SLANTED_EQUAL_ABOVE_LESS_THAN_ABOVE_SLANTED_EQUAL : rel := mkRel 0x2a94 RcDefault false.
(** symbol.rs:1520 *)
Definition SYM_SLANTED_EQUAL_TO_OR_LESS_THAN : rel := mkRel 0x2a95 RcDefault false.
(** symbol.rs:1521 *)
Definition SYM_SLANTED_EQUAL_TO_OR_GREATER_THAN : rel := mkRel 0x2a96 RcDefault false.
(** symbol.rs:1522 *)
Definition SYM_SLANTED_EQUAL_TO_OR_LESS_THAN_WITH_DOT_INSIDE : rel := mkRel 0x2a97 RcDefault false.
(** symbol.rs:1523 *)
Definition SYM_SLANTED_EQUAL_TO_OR_GREATER_THAN_WITH_DOT_INSIDE : rel := mkRel 0x2a98 RcDefault false.
(** symbol.rs:1525 *)
Definition SYM_DOUBLE_LINE_EQUAL_TO_OR_LESS_THAN : rel := mkRel 0x2a99 RcDefault false.
(** symbol.rs:1526 *)
Definition SYM_DOUBLE_LINE_EQUAL_TO_OR_GREATER_THAN : rel := mkRel 0x2a9a RcDefault false.
(** symbol.rs:1527 *)
Definition SYM_DOUBLE_LINE_SLANTED_EQUAL_TO_OR_LESS_THAN : rel := mkRel 0x2a9b RcDefault false.
(** symbol.rs:1528 *)
Definition SYM_DOUBLE_LINE_SLANTED_EQUAL_TO_OR_GREATER_THAN : rel := mkRel 0x2a9c RcDefault false.
(** symbol.rs:1529 *)
Definition SYM_SIMILAR_OR_LESS_THAN : rel := mkRel 0x2a9d RcDefault false.
(** symbol.rs:1530 *)
Definition SYM_SIMILAR_OR_GREATER_THAN : rel := mkRel 0x2a9e RcDefault false.
(** symbol.rs:1531 *)
Definition SYM_SIMILAR_ABOVE_LESS_THAN_ABOVE_EQUALS_SIGN : rel := mkRel 0x2a9f RcDefault false.
(** symbol.rs:1532 *)
Definition SYM_SIMILAR_ABOVE_GREATER_THAN_ABOVE_EQUALS_SIGN : rel := mkRel 0x2aa0 RcDefault false.
(** symbol.rs:1533 *)
Definition SYM_DOUBLE_NESTED_LESS_THAN : rel := mkRel 0x2aa1 RcDefault false.
(** symbol.rs:1534 *)
Definition SYM_DOUBLE_NESTED_GREATER_THAN : rel := mkRel 0x2aa2 RcDefault false.
(** symbol.rs:1535 *)
Definition SYM_DOUBLE_NESTED_LESS_THAN_WITH_UNDERBAR : rel := mkRel 0x2aa3 RcDefault false.
(** symbol.rs:1536 *)
Definition SYM_GREATER_THAN_OVERLAPPING_LESS_THAN : rel := mkRel 0x2aa4 RcDefault false.
(** symbol.rs:1537 *)
Definition SYM_GREATER_THAN_BESIDE_LESS_THAN : rel := mkRel 0x2aa5 RcDefault false.
(** symbol.rs:1538 *)
Definition SYM_LESS_THAN_CLOSED_BY_CURVE : rel := mkRel 0x2aa6 RcDefault false.
(** symbol.rs:1539 *)
Definition SYM_GREATER_THAN_CLOSED_BY_CURVE : rel := mkRel 0x2aa7 RcDefault false.
(** symbol.rs:1540 *)
Definition SYM_LESS_THAN_CLOSED_BY_CURVE_ABOVE_SLANTED_EQUAL : rel := mkRel 0x2aa8 RcDefault false.
(** symbol.rs:1541 *)
Definition SYM_GREATER_THAN_CLOSED_BY_CURVE_ABOVE_SLANTED_EQUAL : rel := mkRel 0x2aa9 RcDefault false.
(** symbol.rs:1543 *)
Definition SYM_SMALLER_THAN : rel := mkRel 0x2aaa RcDefault false.
(** symbol.rs:1544 *)
Definition SYM_LARGER_THAN : rel := mkRel 0x2aab RcDefault false.
(** symbol.rs:1545 *)
Definition SYM_SMALLER_THAN_OR_EQUAL_TO : rel := mkRel 0x2aac RcDefault false.
(** symbol.rs:1546 *)
Definition SYM_LARGER_THAN_OR_EQUAL_TO : rel := mkRel 0x2aad RcDefault false.
(** symbol.rs:1547 *)
Definition SYM_EQUALS_SIGN_WITH_BUMPY_ABOVE : rel := mkRel 0x2aae RcDefault false.
(** symbol.rs:1548 *)
Definition SYM_PRECEDES_ABOVE_SINGLE_LINE_EQUALS_SIGN : rel := mkRel 0x2aaf RcDefault false.
(** symbol.rs:1549 *)
Definition SYM_SUCCEEDS_ABOVE_SINGLE_LINE_EQUALS_SIGN : rel := mkRel 0x2ab0 RcDefault false.
(** symbol.rs:1550 *)
Definition SYM_PRECEDES_ABOVE_SINGLE_LINE_NOT_EQUAL_TO : rel := mkRel 0x2ab1 RcDefault false.
(** symbol.rs:1551 *)
Definition SYM_SUCCEEDS_ABOVE_SINGLE_LINE_NOT_EQUAL_TO : rel := mkRel 0x2ab2 RcDefault false.
(** symbol.rs:1552 *)
Definition SYM_PRECEDES_ABOVE_EQUALS_SIGN : rel := mkRel 0x2ab3 RcDefault false.
(** symbol.rs:1553 *)
Definition SYM_SUCCEEDS_ABOVE_EQUALS_SIGN : rel := mkRel 0x2ab4 RcDefault false.
(** symbol.rs:1554 *)
Definition SYM_PRECEDES_ABOVE_NOT_EQUAL_TO : rel := mkRel 0x2ab5 RcDefault false.
(** symbol.rs:1555 *)
Definition SYM_SUCCEEDS_ABOVE_NOT_EQUAL_TO : rel := mkRel 0x2ab6 RcDefault false.
(** symbol.rs:1556 *)
Definition SYM_PRECEDES_ABOVE_ALMOST_EQUAL_TO : rel := mkRel 0x2ab7 RcDefault false.
(** symbol.rs:1557 *)
Definition SYM_SUCCEEDS_ABOVE_ALMOST_EQUAL_TO : rel := mkRel 0x2ab8 RcDefault false.
(** symbol.rs:1558 *)
Definition SYM_PRECEDES_ABOVE_NOT_ALMOST_EQUAL_TO : rel := mkRel 0x2ab9 RcDefault false.
(** symbol.rs:1559 *)
Definition SYM_SUCCEEDS_ABOVE_NOT_ALMOST_EQUAL_TO : rel := mkRel 0x2aba RcDefault false.
(** symbol.rs:1560 *)
Definition SYM_DOUBLE_PRECEDES : rel := mkRel 0x2abb RcDefault false.
(** symbol.rs:1561 *)
Definition SYM_DOUBLE_SUCCEEDS : rel := mkRel 0x2abc RcDefault false.
(** symbol.rs:1563 *)
Definition SYM_SUBSET_WITH_DOT : rel := mkRel 0x2abd RcDefault false.
(** symbol.rs:1564 *)
Definition SYM_SUPERSET_WITH_DOT : rel := mkRel 0x2abe RcDefault false.
(** symbol.rs:1565 *)
Definition SYM_SUBSET_WITH_PLUS_SIGN_BELOW : rel := mkRel 0x2abf RcDefault false.
(** symbol.rs:1566 *)
Definition SYM_SUPERSET_WITH_PLUS_SIGN_BELOW : rel := mkRel 0x2ac0 RcDefault false.
(** symbol.rs:1567 *)
Definition SYM_SUBSET_WITH_MULTIPLICATION_SIGN_BELOW : rel := mkRel 0x2ac1 RcDefault false.
(** symbol.rs:1568 *)
Definition SYM_SUPERSET_WITH_MULTIPLICATION_SIGN_BELOW : rel := mkRel 0x2ac2 RcDefault false.
(** symbol.rs:1569 *)
Definition SYM_SUBSET_OF_OR_EQUAL_TO_WITH_DOT_ABOVE : rel := mkRel 0x2ac3 RcDefault false.
(** symbol.rs:1570 *)
Definition SYM_SUPERSET_OF_OR_EQUAL_TO_WITH_DOT_ABOVE : rel := mkRel 0x2ac4 RcDefault false.
(** symbol.rs:1571 *)
Definition SYM_SUBSET_OF_ABOVE_EQUALS_SIGN : rel := mkRel 0x2ac5 RcDefault false.
(** symbol.rs:1572 *)
Definition SYM_SUPERSET_OF_ABOVE_EQUALS_SIGN : rel := mkRel 0x2ac6 RcDefault false.
(** symbol.rs:1573 *)
Definition SYM_SUBSET_OF_ABOVE_TILDE_OPERATOR : rel := mkRel 0x2ac7 RcDefault false.
(** symbol.rs:1574 *)
Definition SYM_SUPERSET_OF_ABOVE_TILDE_OPERATOR : rel := mkRel 0x2ac8 RcDefault false.
(** symbol.rs:1575 *)
Definition SYM_SUBSET_OF_ABOVE_ALMOST_EQUAL_TO : rel := mkRel 0x2ac9 RcDefault false.
(** symbol.rs:1576 *)
Definition SYM_SUPERSET_OF_ABOVE_ALMOST_EQUAL_TO : rel := mkRel 0x2aca RcDefault false.
(** symbol.rs:1577 *)
Definition SYM_SUBSET_OF_ABOVE_NOT_EQUAL_TO : rel := mkRel 0x2acb RcDefault false.
(** symbol.rs:1578 *)
Definition SYM_SUBSET_OF_ABOVE_NOT_EQUAL_TO_WITH_STROKE_THROUGH_BOTTOM_MEMBERS : rel := mkRel 0x2acb RcDefault true.
(** symbol.rs:1580 *)
Definition SYM_SUPERSET_OF_ABOVE_NOT_EQUAL_TO : rel := mkRel 0x2acc RcDefault false.
(** symbol.rs:1581 *)
Definition SYM_SUPERSET_OF_ABOVE_NOT_EQUAL_TO_WITH_STROKE_THROUGH_BOTTOM_MEMBERS : rel := mkRel 0x2acc RcDefault true.
(** symbol.rs:1583 *)
Definition SYM_SQUARE_LEFT_OPEN_BOX_OPERATOR : rel := mkRel 0x2acd RcDefault false.
(** symbol.rs:1584 *)
Definition SYM_SQUARE_RIGHT_OPEN_BOX_OPERATOR : rel := mkRel 0x2ace RcDefault false.
(** symbol.rs:1585 *)
Definition SYM_CLOSED_SUBSET : rel := mkRel 0x2acf RcDefault false.
(** symbol.rs:1586 *)
Definition SYM_CLOSED_SUPERSET : rel := mkRel 0x2ad0 RcDefault false.
(** symbol.rs:1587 *)
Definition SYM_CLOSED_SUBSET_OR_EQUAL_TO : rel := mkRel 0x2ad1 RcDefault false.
(** symbol.rs:1588 *)
Definition SYM_CLOSED_SUPERSET_OR_EQUAL_TO : rel := mkRel 0x2ad2 RcDefault false.
(** symbol.rs:1589 *)
Definition SYM_SUBSET_ABOVE_SUPERSET : rel := mkRel 0x2ad3 RcDefault false.
(** symbol.rs:1590 *)
Definition SYM_SUPERSET_ABOVE_SUBSET : rel := mkRel 0x2ad4 RcDefault false.
(** symbol.rs:1591 *)
Definition SYM_SUBSET_ABOVE_SUBSET : rel := mkRel 0x2ad5 RcDefault false.
(** symbol.rs:1592 *)
Definition SYM_SUPERSET_ABOVE_SUPERSET : rel := mkRel 0x2ad6 RcDefault false.
(** symbol.rs:1593 *)
Definition SYM_SUPERSET_BESIDE_SUBSET : rel := mkRel 0x2ad7 RcDefault false.
(** symbol.rs:1594 *)
Definition SYM_SUPERSET_BESIDE_AND_JOINED_BY_DASH_WITH_SUBSET : rel := mkRel 0x2ad8 RcDefault false.
(** symbol.rs:1596 *)
Definition SYM_SHORT_LEFT_TACK : rel := mkRel 0x2ade RcDefault false.
(** symbol.rs:1597 *)
Definition SYM_SHORT_DOWN_TACK : rel := mkRel 0x2adf RcDefault false.
(** symbol.rs:1598 *)
Definition SYM_SHORT_UP_TACK : rel := mkRel 0x2ae0 RcDefault false.
(** symbol.rs:1599 *)
Definition SYM_PERPENDICULAR_WITH_S : rel := mkRel 0x2ae1 RcDefault false.
(** symbol.rs:1600 *)
Definition SYM_VERTICAL_BAR_TRIPLE_RIGHT_TURNSTILE : rel := mkRel 0x2ae2 RcDefault false.
(** symbol.rs:1601 *)
Definition SYM_DOUBLE_VERTICAL_BAR_LEFT_TURNSTILE : rel := mkRel 0x2ae3 RcDefault false.
(** symbol.rs:1602 *)
Definition SYM_VERTICAL_BAR_DOUBLE_LEFT_TURNSTILE : rel := mkRel 0x2ae4 RcDefault false.
(** symbol.rs:1603 *)
Definition SYM_DOUBLE_VERTICAL_BAR_DOUBLE_LEFT_TURNSTILE : rel := mkRel 0x2ae5 RcDefault false.
(** symbol.rs:1604 *)
Definition SYM_LONG_DASH_FROM_LEFT_MEMBER_OF_DOUBLE_VERTICAL : rel := mkRel 0x2ae6 RcDefault false.
(** symbol.rs:1605 *)
Definition SYM_SHORT_DOWN_TACK_WITH_OVERBAR : rel := mkRel 0x2ae7 RcDefault false.
(** symbol.rs:1606 *)
Definition SYM_SHORT_UP_TACK_WITH_UNDERBAR : rel := mkRel 0x2ae8 RcDefault false.
(** symbol.rs:1607 *)
Definition SYM_SHORT_UP_TACK_ABOVE_SHORT_DOWN_TACK : rel := mkRel 0x2ae9 RcDefault false.
(** symbol.rs:1608 *)
Definition SYM_DOUBLE_DOWN_TACK : rel := mkRel 0x2aea RcDefault false.
(** symbol.rs:1609 *)
Definition SYM_DOUBLE_UP_TACK : rel := mkRel 0x2aeb RcDefault false.
(** symbol.rs:1611 *)
Definition SYM_DOES_NOT_DIVIDE_WITH_REVERSED_NEGATION_SLASH : rel := mkRel 0x2aee RcDefault false.
(** symbol.rs:1613 *)
Definition SYM_PARALLEL_WITH_HORIZONTAL_STROKE : rel := mkRel 0x2af2 RcDefault false.
(** symbol.rs:1614 *)
Definition SYM_PARALLEL_WITH_TILDE_OPERATOR : rel := mkRel 0x2af3 RcDefault false.
(** symbol.rs:1616 *)
Definition SYM_TRIPLE_COLON_OPERATOR : bin := mkBin 0x2af6 BcB false.
(** symbol.rs:1618 *)
Definition SYM_TRIPLE_NESTED_LESS_THAN : rel := mkRel 0x2af7 RcDefault false.
(** symbol.rs:1619 *)
Definition SYM_TRIPLE_NESTED_GREATER_THAN : rel := mkRel 0x2af8 RcDefault false.
(** symbol.rs:1620 *)
Definition SYM_DOUBLE_LINE_SLANTED_LESS_THAN_OR_EQUAL_TO : rel := mkRel 0x2af9 RcDefault false.
(** symbol.rs:1621 *)
Definition SYM_DOUBLE_LINE_SLANTED_GREATER_THAN_OR_EQUAL_TO : rel := mkRel 0x2afa RcDefault false.
(** symbol.rs:1623 *)
Definition SYM_LARGE_TRIPLE_VERTICAL_BAR_OPERATOR : op := mkOp 0x2afc PcJ false.
(** symbol.rs:1624 *)
Definition SYM_DOUBLE_SOLIDUS_OPERATOR : bin := mkBin 0x2afd BcB false.
(** symbol.rs:1625 *)
Definition SYM_WHITE_VERTICAL_BAR : op := mkOp 0x2afe PcC false.
(** symbol.rs:1626 *)
Definition SYM_N_ARY_WHITE_VERTICAL_BAR : op := mkOp 0x2aff PcJ false.
(** symbol.rs:1631 *)
Definition SYM_LEFT_ARROW_WITH_SMALL_CIRCLE : rel := mkRel 0x2b30 RcA false.
(** symbol.rs:1632 *)
Definition SYM_THREE_LEFTWARDS_ARROWS : rel := mkRel 0x2b31 RcA false.
(** symbol.rs:1633 *)
Definition SYM_LEFT_ARROW_WITH_CIRCLED_PLUS : rel := mkRel 0x2b32 RcA false.
(** symbol.rs:1634 *)
Definition SYM_LONG_LEFTWARDS_SQUIGGLE_ARROW : rel := mkRel 0x2b33 RcA false.
(** symbol.rs:1635 *)
Definition SYM_LEFTWARDS_TWO_HEADED_ARROW_WITH_VERTICAL_STROKE : rel := mkRel 0x2b34 RcA false.
(** symbol.rs:1636 *)
Definition SYM_LEFTWARDS_TWO_HEADED_ARROW_WITH_DOUBLE_VERTICAL_STROKE : rel := mkRel 0x2b35 RcA false.
(** symbol.rs:1638 *)
Definition SYM_LEFTWARDS_TWO_HEADED_ARROW_FROM_BAR : rel := mkRel 0x2b36 RcA false.
(** symbol.rs:1639 *)
Definition SYM_LEFTWARDS_TWO_HEADED_TRIPLE_DASH_ARROW : rel := mkRel 0x2b37 RcA false.
(** symbol.rs:1640 *)
Definition SYM_LEFTWARDS_ARROW_WITH_DOTTED_STEM : rel := mkRel 0x2b38 RcA false.
(** symbol.rs:1641 *)
Definition SYM_LEFTWARDS_ARROW_WITH_TAIL_WITH_VERTICAL_STROKE : rel := mkRel 0x2b39 RcA false.
(** symbol.rs:1642 *)
Definition SYM_LEFTWARDS_ARROW_WITH_TAIL_WITH_DOUBLE_VERTICAL_STROKE : rel := mkRel 0x2b3a RcA false.
(** symbol.rs:1644 *)
Definition SYM_LEFTWARDS_TWO_HEADED_ARROW_WITH_TAIL : rel := mkRel 0x2b3b RcA false.
(** symbol.rs:1645 *)
Definition SYM_LEFTWARDS_TWO_HEADED_ARROW_WITH_TAIL_WITH_VERTICAL_STROKE : rel := mkRel 0x2b3c RcA false.
(** symbol.rs:1647 *)
Definition SYM_LEFTWARDS_TWO_HEADED_ARROW_WITH_TAIL_WITH_DOUBLE_VERTICAL_STROKE : rel := mkRel 0x2b3d RcA false.
(** symbol.rs:1649 *)
Definition SYM_LEFTWARDS_ARROW_THROUGH_X : rel := mkRel 0x2b3e RcA false.
(** symbol.rs:1650 *)
Definition SYM_WAVE_ARROW_POINTING_DIRECTLY_LEFT : rel := mkRel 0x2b3f RcDefault false.
(** symbol.rs:1651 *)
Definition SYM_EQUALS_SIGN_ABOVE_LEFTWARDS_ARROW : rel := mkRel 0x2b40 RcA false.
(** symbol.rs:1652 *)
Definition SYM_REVERSE_TILDE_OPERATOR_ABOVE_LEFTWARDS_ARROW : rel := mkRel 0x2b41 RcA false.
(** symbol.rs:1653 *)
Definition SYM_LEFTWARDS_ARROW_ABOVE_REVERSE_ALMOST_EQUAL_TO : rel := mkRel 0x2b42 RcA false.
(** symbol.rs:1654 *)
Definition SYM_RIGHTWARDS_ARROW_THROUGH_GREATER_THAN : rel := mkRel 0x2b43 RcA false.
(** symbol.rs:1655 *)
Definition SYM_RIGHTWARDS_ARROW_THROUGH_SUPERSET : rel := mkRel 0x2b44 RcA false.
(** symbol.rs:1656 *)
Definition SYM_LEFTWARDS_QUADRUPLE_ARROW : rel := mkRel 0x2b45 RcA false.
(** symbol.rs:1657 *)
Definition SYM_RIGHTWARDS_QUADRUPLE_ARROW : rel := mkRel 0x2b46 RcA false.
(** symbol.rs:1658 *)
Definition SYM_REVERSE_TILDE_OPERATOR_ABOVE_RIGHTWARDS_ARROW : rel := mkRel 0x2b47 RcA false.
(** symbol.rs:1659 *)
Definition SYM_RIGHTWARDS_ARROW_ABOVE_REVERSE_ALMOST_EQUAL_TO : rel := mkRel 0x2b48 RcA false.
(** symbol.rs:1660 *)
Definition SYM_TILDE_OPERATOR_ABOVE_LEFTWARDS_ARROW : rel := mkRel 0x2b49 RcA false.
(** symbol.rs:1661 *)
Definition SYM_LEFTWARDS_ARROW_ABOVE_ALMOST_EQUAL_TO : rel := mkRel 0x2b4a RcA false.
(** symbol.rs:1662 *)
Definition SYM_LEFTWARDS_ARROW_ABOVE_REVERSE_TILDE_OPERATOR : rel := mkRel 0x2b4b RcA false.
(** symbol.rs:1663 *)
Definition SYM_RIGHTWARDS_ARROW_ABOVE_REVERSE_TILDE_OPERATOR : rel := mkRel 0x2b4c RcA false.
