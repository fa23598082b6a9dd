(** Which symbols there are in TeX: the table of the package unicode-math and the symbols of LaTeX. *)
From Coq Require Import String.
From Verif Require Import Str M_SuperChar M_Length M_Spec M_Ast M_Token M_Symbols M_Commands M_Env M_LatexError M_Lexer M_CustomCmds M_Queue
  M_Spacing M_Leaf M_Parser M_Emit S_Html S_Store S_Emit S_MathML S_Spacing S_Queue S_Scripts S_Formula S_Dictionary.

(** ** The tables *)

(** The table of unicode-math (docs/unicode-math-table.html, from unicode-math-table.tex): names, characters and classes.
    The accents of the table are left out. *)
Inductive um_class := UAlpha | UOrd | UOp | UBin | URel | UOpen | UClose | UPunct | UFence.
Definition um_atom (k : um_class) : atom :=
  match k with
  | UAlpha | UOrd | UFence => AOrd
  | UOp => AOp | UBin => ABin | URel => ARel | UOpen => AOpen | UClose => AClose | UPunct => APunct
  end.
Definition names {A} (l : list (string * N * A)) : list (str * (N * A)) := map (fun p => (lit (fst (fst p)), (snd (fst p), snd p))) l.
Definition unicode_math : list (str * (N * um_class)) := names [
   ("mathexclam", 0x21, UClose); ("mathoctothorpe", 0x23, UOrd); ("mathdollar", 0x24, UOrd); ("mathpercent", 0x25, UOrd);
   ("mathampersand", 0x26, UOrd); ("lparen", 0x28, UOpen); ("rparen", 0x29, UClose); ("mathplus", 0x2b, UBin);
   ("mathcomma", 0x2c, UPunct); ("mathperiod", 0x2e, UOrd); ("mathslash", 0x2f, UOrd); ("mathcolon", 0x3a, UPunct);
   ("mathsemicolon", 0x3b, UPunct); ("less", 0x3c, URel); ("equal", 0x3d, URel); ("greater", 0x3e, URel);
   ("mathquestion", 0x3f, UOrd); ("mathatsign", 0x40, UOrd); ("lbrack", 0x5b, UOpen); ("backslash", 0x5c, UOrd);
   ("rbrack", 0x5d, UClose); ("lbrace", 0x7b, UOpen); ("vert", 0x7c, UFence); ("rbrace", 0x7d, UClose);
   ("mathsterling", 0xa3, UOrd); ("mathyen", 0xa5, UOrd); ("mathsection", 0xa7, UOrd); ("neg", 0xac, UOrd); ("pm", 0xb1, UBin);
   ("mathparagraph", 0xb6, UOrd); ("cdotp", 0xb7, UBin); ("times", 0xd7, UBin); ("matheth", 0xf0, UAlpha); ("div", 0xf7, UBin);
   ("Zbar", 0x1b5, UOrd); ("mupAlpha", 0x391, UAlpha); ("mupBeta", 0x392, UAlpha); ("mupGamma", 0x393, UAlpha);
   ("mupDelta", 0x394, UAlpha); ("mupEpsilon", 0x395, UAlpha); ("mupZeta", 0x396, UAlpha); ("mupEta", 0x397, UAlpha);
   ("mupTheta", 0x398, UAlpha); ("mupIota", 0x399, UAlpha); ("mupKappa", 0x39a, UAlpha); ("mupLambda", 0x39b, UAlpha);
   ("mupMu", 0x39c, UAlpha); ("mupNu", 0x39d, UAlpha); ("mupXi", 0x39e, UAlpha); ("mupOmicron", 0x39f, UAlpha);
   ("mupPi", 0x3a0, UAlpha); ("mupRho", 0x3a1, UAlpha); ("mupSigma", 0x3a3, UAlpha); ("mupTau", 0x3a4, UAlpha);
   ("mupUpsilon", 0x3a5, UAlpha); ("mupPhi", 0x3a6, UAlpha); ("mupChi", 0x3a7, UAlpha); ("mupPsi", 0x3a8, UAlpha);
   ("mupOmega", 0x3a9, UAlpha); ("mupalpha", 0x3b1, UAlpha); ("mupbeta", 0x3b2, UAlpha); ("mupgamma", 0x3b3, UAlpha);
   ("mupdelta", 0x3b4, UAlpha); ("mupvarepsilon", 0x3b5, UAlpha); ("mupzeta", 0x3b6, UAlpha); ("mupeta", 0x3b7, UAlpha);
   ("muptheta", 0x3b8, UAlpha); ("mupiota", 0x3b9, UAlpha); ("mupkappa", 0x3ba, UAlpha); ("muplambda", 0x3bb, UAlpha);
   ("mupmu", 0x3bc, UAlpha); ("mupnu", 0x3bd, UAlpha); ("mupxi", 0x3be, UAlpha); ("mupomicron", 0x3bf, UAlpha);
   ("muppi", 0x3c0, UAlpha); ("muprho", 0x3c1, UAlpha); ("mupvarsigma", 0x3c2, UAlpha); ("mupsigma", 0x3c3, UAlpha);
   ("muptau", 0x3c4, UAlpha); ("mupupsilon", 0x3c5, UAlpha); ("mupvarphi", 0x3c6, UAlpha); ("mupchi", 0x3c7, UAlpha);
   ("muppsi", 0x3c8, UAlpha); ("mupomega", 0x3c9, UAlpha); ("mupvartheta", 0x3d1, UAlpha); ("mupphi", 0x3d5, UAlpha);
   ("mupvarpi", 0x3d6, UAlpha); ("upDigamma", 0x3dc, UAlpha); ("updigamma", 0x3dd, UAlpha); ("mupvarkappa", 0x3f0, UAlpha);
   ("mupvarrho", 0x3f1, UAlpha); ("mupvarTheta", 0x3f4, UAlpha); ("mupepsilon", 0x3f5, UAlpha); ("upbackepsilon", 0x3f6, UOrd);
   ("mathhyphen", 0x2010, UAlpha); ("horizbar", 0x2015, UOrd); ("Vert", 0x2016, UFence); ("twolowline", 0x2017, UOrd);
   ("dagger", 0x2020, UBin); ("ddagger", 0x2021, UBin); ("smblkcircle", 0x2022, UBin); ("enleadertwodots", 0x2025, UOrd);
   ("unicodeellipsis", 0x2026, UOrd); ("prime", 0x2032, UOrd); ("dprime", 0x2033, UOrd); ("trprime", 0x2034, UOrd);
   ("backprime", 0x2035, UOrd); ("backdprime", 0x2036, UOrd); ("backtrprime", 0x2037, UOrd); ("caretinsert", 0x2038, UOrd);
   ("Exclam", 0x203c, UOrd); ("tieconcat", 0x2040, UBin); ("hyphenbullet", 0x2043, UOrd); ("fracslash", 0x2044, UBin);
   ("Question", 0x2047, UOrd); ("closure", 0x2050, URel); ("qprime", 0x2057, UOrd); ("euro", 0x20ac, UOrd);
   ("enclosecircle", 0x20dd, UOrd); ("enclosesquare", 0x20de, UOrd); ("enclosediamond", 0x20df, UOrd);
   ("enclosetriangle", 0x20e4, UOrd); ("BbbC", 0x2102, UAlpha); ("Eulerconst", 0x2107, UOrd); ("mscrg", 0x210a, UAlpha);
   ("mscrH", 0x210b, UAlpha); ("mfrakH", 0x210c, UAlpha); ("BbbH", 0x210d, UAlpha); ("Planckconst", 0x210e, UOrd);
   ("hslash", 0x210f, UAlpha); ("mscrI", 0x2110, UAlpha); ("Im", 0x2111, UAlpha); ("mscrL", 0x2112, UAlpha);
   ("ell", 0x2113, UAlpha); ("BbbN", 0x2115, UAlpha); ("wp", 0x2118, UAlpha); ("BbbP", 0x2119, UAlpha); ("BbbQ", 0x211a, UAlpha);
   ("mscrR", 0x211b, UAlpha); ("Re", 0x211c, UAlpha); ("BbbR", 0x211d, UAlpha); ("BbbZ", 0x2124, UAlpha); ("mho", 0x2127, UOrd);
   ("mfrakZ", 0x2128, UAlpha); ("turnediota", 0x2129, UAlpha); ("Angstrom", 0x212b, UAlpha); ("mscrB", 0x212c, UAlpha);
   ("mfrakC", 0x212d, UAlpha); ("mscre", 0x212f, UAlpha); ("mscrE", 0x2130, UAlpha); ("mscrF", 0x2131, UAlpha);
   ("Finv", 0x2132, UOrd); ("mscrM", 0x2133, UAlpha); ("mscro", 0x2134, UAlpha); ("aleph", 0x2135, UAlpha);
   ("beth", 0x2136, UAlpha); ("gimel", 0x2137, UAlpha); ("daleth", 0x2138, UAlpha); ("Bbbpi", 0x213c, UOrd);
   ("Bbbgamma", 0x213d, UAlpha); ("BbbGamma", 0x213e, UAlpha); ("BbbPi", 0x213f, UAlpha); ("Bbbsum", 0x2140, UOp);
   ("Game", 0x2141, UOrd); ("sansLturned", 0x2142, UOrd); ("sansLmirrored", 0x2143, UOrd); ("Yup", 0x2144, UOrd);
   ("mitBbbD", 0x2145, UOrd); ("mitBbbd", 0x2146, UOrd); ("mitBbbe", 0x2147, UOrd); ("mitBbbi", 0x2148, UOrd);
   ("mitBbbj", 0x2149, UOrd); ("PropertyLine", 0x214a, UOrd); ("upand", 0x214b, UBin); ("leftarrow", 0x2190, URel);
   ("uparrow", 0x2191, URel); ("rightarrow", 0x2192, URel); ("downarrow", 0x2193, URel); ("leftrightarrow", 0x2194, URel);
   ("updownarrow", 0x2195, URel); ("nwarrow", 0x2196, URel); ("nearrow", 0x2197, URel); ("searrow", 0x2198, URel);
   ("swarrow", 0x2199, URel); ("nleftarrow", 0x219a, URel); ("nrightarrow", 0x219b, URel); ("leftwavearrow", 0x219c, URel);
   ("rightwavearrow", 0x219d, URel); ("twoheadleftarrow", 0x219e, URel); ("twoheaduparrow", 0x219f, URel);
   ("twoheadrightarrow", 0x21a0, URel); ("twoheaddownarrow", 0x21a1, URel); ("leftarrowtail", 0x21a2, URel);
   ("rightarrowtail", 0x21a3, URel); ("mapsfrom", 0x21a4, URel); ("mapsup", 0x21a5, URel); ("mapsto", 0x21a6, URel);
   ("mapsdown", 0x21a7, URel); ("updownarrowbar", 0x21a8, UOrd); ("hookleftarrow", 0x21a9, URel); ("hookrightarrow", 0x21aa, URel);
   ("looparrowleft", 0x21ab, URel); ("looparrowright", 0x21ac, URel); ("leftrightsquigarrow", 0x21ad, URel);
   ("nleftrightarrow", 0x21ae, URel); ("downzigzagarrow", 0x21af, URel); ("Lsh", 0x21b0, URel); ("Rsh", 0x21b1, URel);
   ("Ldsh", 0x21b2, URel); ("Rdsh", 0x21b3, URel); ("linefeed", 0x21b4, UOrd); ("carriagereturn", 0x21b5, UOrd);
   ("curvearrowleft", 0x21b6, URel); ("curvearrowright", 0x21b7, URel); ("barovernorthwestarrow", 0x21b8, UOrd);
   ("barleftarrowrightarrowbar", 0x21b9, UOrd); ("acwopencirclearrow", 0x21ba, UOrd); ("cwopencirclearrow", 0x21bb, UOrd);
   ("leftharpoonup", 0x21bc, URel); ("leftharpoondown", 0x21bd, URel); ("upharpoonright", 0x21be, URel);
   ("upharpoonleft", 0x21bf, URel); ("rightharpoonup", 0x21c0, URel); ("rightharpoondown", 0x21c1, URel);
   ("downharpoonright", 0x21c2, URel); ("downharpoonleft", 0x21c3, URel); ("rightleftarrows", 0x21c4, URel);
   ("updownarrows", 0x21c5, URel); ("leftrightarrows", 0x21c6, URel); ("leftleftarrows", 0x21c7, URel);
   ("upuparrows", 0x21c8, URel); ("rightrightarrows", 0x21c9, URel); ("downdownarrows", 0x21ca, URel);
   ("leftrightharpoons", 0x21cb, URel); ("rightleftharpoons", 0x21cc, URel); ("nLeftarrow", 0x21cd, URel);
   ("nLeftrightarrow", 0x21ce, URel); ("nRightarrow", 0x21cf, URel); ("Leftarrow", 0x21d0, URel); ("Uparrow", 0x21d1, URel);
   ("Rightarrow", 0x21d2, URel); ("Downarrow", 0x21d3, URel); ("Leftrightarrow", 0x21d4, URel); ("Updownarrow", 0x21d5, URel);
   ("Nwarrow", 0x21d6, URel); ("Nearrow", 0x21d7, URel); ("Searrow", 0x21d8, URel); ("Swarrow", 0x21d9, URel);
   ("Lleftarrow", 0x21da, URel); ("Rrightarrow", 0x21db, URel); ("leftsquigarrow", 0x21dc, URel);
   ("rightsquigarrow", 0x21dd, URel); ("nHuparrow", 0x21de, UOrd); ("nHdownarrow", 0x21df, UOrd); ("leftdasharrow", 0x21e0, UOrd);
   ("updasharrow", 0x21e1, UOrd); ("rightdasharrow", 0x21e2, UOrd); ("downdasharrow", 0x21e3, UOrd);
   ("barleftarrow", 0x21e4, URel); ("rightarrowbar", 0x21e5, URel); ("leftwhitearrow", 0x21e6, UOrd);
   ("upwhitearrow", 0x21e7, UOrd); ("rightwhitearrow", 0x21e8, UOrd); ("downwhitearrow", 0x21e9, UOrd);
   ("whitearrowupfrombar", 0x21ea, UOrd); ("circleonrightarrow", 0x21f4, URel); ("downuparrows", 0x21f5, URel);
   ("rightthreearrows", 0x21f6, URel); ("nvleftarrow", 0x21f7, URel); ("nvrightarrow", 0x21f8, URel);
   ("nvleftrightarrow", 0x21f9, URel); ("nVleftarrow", 0x21fa, URel); ("nVrightarrow", 0x21fb, URel);
   ("nVleftrightarrow", 0x21fc, URel); ("leftarrowtriangle", 0x21fd, URel); ("rightarrowtriangle", 0x21fe, URel);
   ("leftrightarrowtriangle", 0x21ff, URel); ("forall", 0x2200, UOrd); ("complement", 0x2201, UOrd); ("partial", 0x2202, UAlpha);
   ("exists", 0x2203, UOrd); ("nexists", 0x2204, UOrd); ("varnothing", 0x2205, UOrd); ("increment", 0x2206, UOrd);
   ("nabla", 0x2207, UAlpha); ("in", 0x2208, URel); ("notin", 0x2209, URel); ("smallin", 0x220a, URel); ("ni", 0x220b, URel);
   ("nni", 0x220c, URel); ("smallni", 0x220d, URel); ("QED", 0x220e, UOrd); ("prod", 0x220f, UOp); ("coprod", 0x2210, UOp);
   ("sum", 0x2211, UOp); ("minus", 0x2212, UBin); ("mp", 0x2213, UBin); ("dotplus", 0x2214, UBin); ("divslash", 0x2215, UBin);
   ("setminus", 0x2216, UBin); ("ast", 0x2217, UBin); ("vysmwhtcircle", 0x2218, UBin); ("vysmblkcircle", 0x2219, UBin);
   ("sqrt", 0x221a, UOpen); ("surd", 0x221a, UOrd); ("cuberoot", 0x221b, UOpen); ("fourthroot", 0x221c, UOpen);
   ("propto", 0x221d, URel); ("infty", 0x221e, UOrd); ("rightangle", 0x221f, UOrd); ("angle", 0x2220, UOrd);
   ("measuredangle", 0x2221, UOrd); ("sphericalangle", 0x2222, UOrd); ("mid", 0x2223, URel); ("nmid", 0x2224, URel);
   ("parallel", 0x2225, URel); ("nparallel", 0x2226, URel); ("wedge", 0x2227, UBin); ("vee", 0x2228, UBin); ("cap", 0x2229, UBin);
   ("cup", 0x222a, UBin); ("int", 0x222b, UOp); ("iint", 0x222c, UOp); ("iiint", 0x222d, UOp); ("oint", 0x222e, UOp);
   ("oiint", 0x222f, UOp); ("oiiint", 0x2230, UOp); ("intclockwise", 0x2231, UOp); ("varointclockwise", 0x2232, UOp);
   ("ointctrclockwise", 0x2233, UOp); ("therefore", 0x2234, UOrd); ("because", 0x2235, UOrd); ("mathratio", 0x2236, URel);
   ("Colon", 0x2237, URel); ("dotminus", 0x2238, UBin); ("dashcolon", 0x2239, URel); ("dotsminusdots", 0x223a, URel);
   ("kernelcontraction", 0x223b, URel); ("sim", 0x223c, URel); ("backsim", 0x223d, URel); ("invlazys", 0x223e, UBin);
   ("sinewave", 0x223f, UOrd); ("wr", 0x2240, UBin); ("nsim", 0x2241, URel); ("eqsim", 0x2242, URel); ("simeq", 0x2243, URel);
   ("nsime", 0x2244, URel); ("sime", 0x2243, URel); ("nsimeq", 0x2244, URel); ("cong", 0x2245, URel); ("simneqq", 0x2246, URel);
   ("ncong", 0x2247, URel); ("approx", 0x2248, URel); ("napprox", 0x2249, URel); ("approxeq", 0x224a, URel);
   ("approxident", 0x224b, URel); ("backcong", 0x224c, URel); ("asymp", 0x224d, URel); ("Bumpeq", 0x224e, URel);
   ("bumpeq", 0x224f, URel); ("doteq", 0x2250, URel); ("Doteq", 0x2251, URel); ("fallingdotseq", 0x2252, URel);
   ("risingdotseq", 0x2253, URel); ("coloneq", 0x2254, URel); ("eqcolon", 0x2255, URel); ("eqcirc", 0x2256, URel);
   ("circeq", 0x2257, URel); ("arceq", 0x2258, URel); ("wedgeq", 0x2259, URel); ("veeeq", 0x225a, URel); ("stareq", 0x225b, URel);
   ("triangleq", 0x225c, URel); ("eqdef", 0x225d, URel); ("measeq", 0x225e, URel); ("questeq", 0x225f, URel); ("ne", 0x2260, URel);
   ("equiv", 0x2261, URel); ("nequiv", 0x2262, URel); ("Equiv", 0x2263, URel); ("leq", 0x2264, URel); ("geq", 0x2265, URel);
   ("leqq", 0x2266, URel); ("geqq", 0x2267, URel); ("lneqq", 0x2268, URel); ("gneqq", 0x2269, URel); ("ll", 0x226a, URel);
   ("gg", 0x226b, URel); ("between", 0x226c, URel); ("nasymp", 0x226d, URel); ("nless", 0x226e, URel); ("ngtr", 0x226f, URel);
   ("nleq", 0x2270, URel); ("ngeq", 0x2271, URel); ("lesssim", 0x2272, URel); ("gtrsim", 0x2273, URel); ("nlesssim", 0x2274, URel);
   ("ngtrsim", 0x2275, URel); ("lessgtr", 0x2276, URel); ("gtrless", 0x2277, URel); ("nlessgtr", 0x2278, URel);
   ("ngtrless", 0x2279, URel); ("prec", 0x227a, URel); ("succ", 0x227b, URel); ("preccurlyeq", 0x227c, URel);
   ("succcurlyeq", 0x227d, URel); ("precsim", 0x227e, URel); ("succsim", 0x227f, URel); ("nprec", 0x2280, URel);
   ("nsucc", 0x2281, URel); ("subset", 0x2282, URel); ("supset", 0x2283, URel); ("nsubset", 0x2284, URel);
   ("nsupset", 0x2285, URel); ("subseteq", 0x2286, URel); ("supseteq", 0x2287, URel); ("nsubseteq", 0x2288, URel);
   ("nsupseteq", 0x2289, URel); ("subsetneq", 0x228a, URel); ("supsetneq", 0x228b, URel); ("cupleftarrow", 0x228c, UBin);
   ("cupdot", 0x228d, UBin); ("uplus", 0x228e, UBin); ("sqsubset", 0x228f, URel); ("sqsupset", 0x2290, URel);
   ("sqsubseteq", 0x2291, URel); ("sqsupseteq", 0x2292, URel); ("sqcap", 0x2293, UBin); ("sqcup", 0x2294, UBin);
   ("oplus", 0x2295, UBin); ("ominus", 0x2296, UBin); ("otimes", 0x2297, UBin); ("oslash", 0x2298, UBin); ("odot", 0x2299, UBin);
   ("circledcirc", 0x229a, UBin); ("circledast", 0x229b, UBin); ("circledequal", 0x229c, UBin); ("circleddash", 0x229d, UBin);
   ("boxplus", 0x229e, UBin); ("boxminus", 0x229f, UBin); ("boxtimes", 0x22a0, UBin); ("boxdot", 0x22a1, UBin);
   ("vdash", 0x22a2, URel); ("dashv", 0x22a3, URel); ("top", 0x22a4, UOrd); ("bot", 0x22a5, UOrd); ("assert", 0x22a6, URel);
   ("models", 0x22a7, URel); ("vDash", 0x22a8, URel); ("Vdash", 0x22a9, URel); ("Vvdash", 0x22aa, URel); ("VDash", 0x22ab, URel);
   ("nvdash", 0x22ac, URel); ("nvDash", 0x22ad, URel); ("nVdash", 0x22ae, URel); ("nVDash", 0x22af, URel);
   ("prurel", 0x22b0, URel); ("scurel", 0x22b1, URel); ("vartriangleleft", 0x22b2, URel); ("vartriangleright", 0x22b3, URel);
   ("trianglelefteq", 0x22b4, URel); ("trianglerighteq", 0x22b5, URel); ("origof", 0x22b6, URel); ("imageof", 0x22b7, URel);
   ("multimap", 0x22b8, URel); ("hermitmatrix", 0x22b9, UOrd); ("intercal", 0x22ba, UBin); ("veebar", 0x22bb, UBin);
   ("barwedge", 0x22bc, UBin); ("barvee", 0x22bd, UBin); ("measuredrightangle", 0x22be, UOrd); ("varlrtriangle", 0x22bf, UOrd);
   ("bigwedge", 0x22c0, UOp); ("bigvee", 0x22c1, UOp); ("bigcap", 0x22c2, UOp); ("bigcup", 0x22c3, UOp);
   ("smwhtdiamond", 0x22c4, UBin); ("cdot", 0x22c5, UBin); ("star", 0x22c6, UBin); ("divideontimes", 0x22c7, UBin);
   ("bowtie", 0x22c8, URel); ("ltimes", 0x22c9, UBin); ("rtimes", 0x22ca, UBin); ("leftthreetimes", 0x22cb, UBin);
   ("rightthreetimes", 0x22cc, UBin); ("backsimeq", 0x22cd, URel); ("curlyvee", 0x22ce, UBin); ("curlywedge", 0x22cf, UBin);
   ("Subset", 0x22d0, URel); ("Supset", 0x22d1, URel); ("Cap", 0x22d2, UBin); ("Cup", 0x22d3, UBin); ("pitchfork", 0x22d4, URel);
   ("equalparallel", 0x22d5, URel); ("lessdot", 0x22d6, URel); ("gtrdot", 0x22d7, URel); ("lll", 0x22d8, URel);
   ("ggg", 0x22d9, URel); ("lesseqgtr", 0x22da, URel); ("gtreqless", 0x22db, URel); ("eqless", 0x22dc, URel);
   ("eqgtr", 0x22dd, URel); ("curlyeqprec", 0x22de, URel); ("curlyeqsucc", 0x22df, URel); ("npreccurlyeq", 0x22e0, URel);
   ("nsucccurlyeq", 0x22e1, URel); ("nsqsubseteq", 0x22e2, URel); ("nsqsupseteq", 0x22e3, URel); ("sqsubsetneq", 0x22e4, URel);
   ("sqsupsetneq", 0x22e5, URel); ("lnsim", 0x22e6, URel); ("gnsim", 0x22e7, URel); ("precnsim", 0x22e8, URel);
   ("succnsim", 0x22e9, URel); ("nvartriangleleft", 0x22ea, URel); ("nvartriangleright", 0x22eb, URel);
   ("ntrianglelefteq", 0x22ec, URel); ("ntrianglerighteq", 0x22ed, URel); ("vdots", 0x22ee, URel); ("unicodecdots", 0x22ef, UOrd);
   ("adots", 0x22f0, URel); ("ddots", 0x22f1, URel); ("disin", 0x22f2, URel); ("varisins", 0x22f3, URel); ("isins", 0x22f4, URel);
   ("isindot", 0x22f5, URel); ("varisinobar", 0x22f6, URel); ("isinobar", 0x22f7, URel); ("isinvb", 0x22f8, URel);
   ("isinE", 0x22f9, URel); ("nisd", 0x22fa, URel); ("varnis", 0x22fb, URel); ("nis", 0x22fc, URel); ("varniobar", 0x22fd, URel);
   ("niobar", 0x22fe, URel); ("bagmember", 0x22ff, URel); ("diameter", 0x2300, UOrd); ("house", 0x2302, UOrd);
   ("varbarwedge", 0x2305, UBin); ("vardoublebarwedge", 0x2306, UBin); ("lceil", 0x2308, UOpen); ("rceil", 0x2309, UClose);
   ("lfloor", 0x230a, UOpen); ("rfloor", 0x230b, UClose); ("invnot", 0x2310, UOrd); ("sqlozenge", 0x2311, UOrd);
   ("profline", 0x2312, UOrd); ("profsurf", 0x2313, UOrd); ("viewdata", 0x2317, UOrd); ("turnednot", 0x2319, UOrd);
   ("ulcorner", 0x231c, UOpen); ("urcorner", 0x231d, UClose); ("llcorner", 0x231e, UOpen); ("lrcorner", 0x231f, UClose);
   ("inttop", 0x2320, UOrd); ("intbottom", 0x2321, UOrd); ("frown", 0x2322, URel); ("smile", 0x2323, URel);
   ("varhexagonlrbonds", 0x232c, UOrd); ("conictaper", 0x2332, UOrd); ("topbot", 0x2336, UOrd); ("obar", 0x233d, UBin);
   ("APLnotslash", 0x233f, URel); ("APLnotbackslash", 0x2340, UOrd); ("APLboxupcaret", 0x2353, UOrd);
   ("APLboxquestion", 0x2370, UOrd); ("rangledownzigzagarrow", 0x237c, UOrd); ("hexagon", 0x2394, UOrd);
   ("lparenuend", 0x239b, UOrd); ("lparenextender", 0x239c, UOrd); ("lparenlend", 0x239d, UOrd); ("rparenuend", 0x239e, UOrd);
   ("rparenextender", 0x239f, UOrd); ("rparenlend", 0x23a0, UOrd); ("lbrackuend", 0x23a1, UOrd); ("lbrackextender", 0x23a2, UOrd);
   ("lbracklend", 0x23a3, UOrd); ("rbrackuend", 0x23a4, UOrd); ("rbrackextender", 0x23a5, UOrd); ("rbracklend", 0x23a6, UOrd);
   ("lbraceuend", 0x23a7, UOrd); ("lbracemid", 0x23a8, UOrd); ("lbracelend", 0x23a9, UOrd); ("vbraceextender", 0x23aa, UOrd);
   ("rbraceuend", 0x23ab, UOrd); ("rbracemid", 0x23ac, UOrd); ("rbracelend", 0x23ad, UOrd); ("intextender", 0x23ae, UOrd);
   ("harrowextender", 0x23af, UOrd); ("lmoustache", 0x23b0, UOpen); ("rmoustache", 0x23b1, UClose); ("sumtop", 0x23b2, UOrd);
   ("sumbottom", 0x23b3, UOrd); ("bbrktbrk", 0x23b6, UOrd); ("sqrtbottom", 0x23b7, UOrd); ("lvboxline", 0x23b8, UOrd);
   ("rvboxline", 0x23b9, UOrd); ("varcarriagereturn", 0x23ce, UOrd); ("obrbrak", 0x23e0, UOrd); ("ubrbrak", 0x23e1, UOrd);
   ("trapezium", 0x23e2, UOrd); ("benzenr", 0x23e3, UOrd); ("strns", 0x23e4, UOrd); ("fltns", 0x23e5, UOrd);
   ("accurrent", 0x23e6, UOrd); ("elinters", 0x23e7, UOrd); ("blanksymbol", 0x2422, UOrd); ("mathvisiblespace", 0x2423, UOrd);
   ("bdtriplevdash", 0x2506, UOrd); ("blockuphalf", 0x2580, UOrd); ("blocklowhalf", 0x2584, UOrd); ("blockfull", 0x2588, UOrd);
   ("blocklefthalf", 0x258c, UOrd); ("blockrighthalf", 0x2590, UOrd); ("blockqtrshaded", 0x2591, UOrd);
   ("blockhalfshaded", 0x2592, UOrd); ("blockthreeqtrshaded", 0x2593, UOrd); ("mdlgblksquare", 0x25a0, UOrd);
   ("mdlgwhtsquare", 0x25a1, UOrd); ("squoval", 0x25a2, UOrd); ("blackinwhitesquare", 0x25a3, UOrd); ("squarehfill", 0x25a4, UOrd);
   ("squarevfill", 0x25a5, UOrd); ("squarehvfill", 0x25a6, UOrd); ("squarenwsefill", 0x25a7, UOrd);
   ("squareneswfill", 0x25a8, UOrd); ("squarecrossfill", 0x25a9, UOrd); ("smblksquare", 0x25aa, UOrd);
   ("smwhtsquare", 0x25ab, UOrd); ("hrectangleblack", 0x25ac, UOrd); ("hrectangle", 0x25ad, UOrd);
   ("vrectangleblack", 0x25ae, UOrd); ("vrectangle", 0x25af, UOrd); ("parallelogramblack", 0x25b0, UOrd);
   ("parallelogram", 0x25b1, UOrd); ("bigblacktriangleup", 0x25b2, UOrd); ("bigtriangleup", 0x25b3, UBin);
   ("blacktriangle", 0x25b4, UOrd); ("vartriangle", 0x25b5, URel); ("blacktriangleright", 0x25b6, UOrd);
   ("triangleright", 0x25b7, UBin); ("smallblacktriangleright", 0x25b8, UOrd); ("smalltriangleright", 0x25b9, UOrd);
   ("blackpointerright", 0x25ba, UOrd); ("whitepointerright", 0x25bb, UOrd); ("bigblacktriangledown", 0x25bc, UOrd);
   ("bigtriangledown", 0x25bd, UOrd); ("blacktriangledown", 0x25be, UOrd); ("triangledown", 0x25bf, UOrd);
   ("blacktriangleleft", 0x25c0, UOrd); ("triangleleft", 0x25c1, UBin); ("smallblacktriangleleft", 0x25c2, UOrd);
   ("smalltriangleleft", 0x25c3, UOrd); ("blackpointerleft", 0x25c4, UOrd); ("whitepointerleft", 0x25c5, UOrd);
   ("mdlgblkdiamond", 0x25c6, UOrd); ("mdlgwhtdiamond", 0x25c7, UOrd); ("blackinwhitediamond", 0x25c8, UOrd);
   ("fisheye", 0x25c9, UOrd); ("mdlgwhtlozenge", 0x25ca, UOrd); ("mdlgwhtcircle", 0x25cb, UBin); ("dottedcircle", 0x25cc, UOrd);
   ("circlevertfill", 0x25cd, UOrd); ("bullseye", 0x25ce, UOrd); ("mdlgblkcircle", 0x25cf, UOrd);
   ("circlelefthalfblack", 0x25d0, UOrd); ("circlerighthalfblack", 0x25d1, UOrd); ("circlebottomhalfblack", 0x25d2, UOrd);
   ("circletophalfblack", 0x25d3, UOrd); ("circleurquadblack", 0x25d4, UOrd); ("blackcircleulquadwhite", 0x25d5, UOrd);
   ("blacklefthalfcircle", 0x25d6, UOrd); ("blackrighthalfcircle", 0x25d7, UOrd); ("inversebullet", 0x25d8, UOrd);
   ("inversewhitecircle", 0x25d9, UOrd); ("invwhiteupperhalfcircle", 0x25da, UOrd); ("invwhitelowerhalfcircle", 0x25db, UOrd);
   ("ularc", 0x25dc, UOrd); ("urarc", 0x25dd, UOrd); ("lrarc", 0x25de, UOrd); ("llarc", 0x25df, UOrd);
   ("topsemicircle", 0x25e0, UOrd); ("botsemicircle", 0x25e1, UOrd); ("lrblacktriangle", 0x25e2, UOrd);
   ("llblacktriangle", 0x25e3, UOrd); ("ulblacktriangle", 0x25e4, UOrd); ("urblacktriangle", 0x25e5, UOrd);
   ("smwhtcircle", 0x25e6, UOrd); ("squareleftblack", 0x25e7, UOrd); ("squarerightblack", 0x25e8, UOrd);
   ("squareulblack", 0x25e9, UOrd); ("squarelrblack", 0x25ea, UOrd); ("boxbar", 0x25eb, UBin); ("trianglecdot", 0x25ec, UOrd);
   ("triangleleftblack", 0x25ed, UOrd); ("trianglerightblack", 0x25ee, UOrd); ("lgwhtcircle", 0x25ef, UOrd);
   ("squareulquad", 0x25f0, UOrd); ("squarellquad", 0x25f1, UOrd); ("squarelrquad", 0x25f2, UOrd); ("squareurquad", 0x25f3, UOrd);
   ("circleulquad", 0x25f4, UOrd); ("circlellquad", 0x25f5, UOrd); ("circlelrquad", 0x25f6, UOrd); ("circleurquad", 0x25f7, UOrd);
   ("ultriangle", 0x25f8, UOrd); ("urtriangle", 0x25f9, UOrd); ("lltriangle", 0x25fa, UOrd); ("mdwhtsquare", 0x25fb, UOrd);
   ("mdblksquare", 0x25fc, UOrd); ("mdsmwhtsquare", 0x25fd, UOrd); ("mdsmblksquare", 0x25fe, UOrd); ("lrtriangle", 0x25ff, UOrd);
   ("bigstar", 0x2605, UOrd); ("bigwhitestar", 0x2606, UOrd); ("astrosun", 0x2609, UOrd); ("danger", 0x2621, UOrd);
   ("blacksmiley", 0x263b, UOrd); ("sun", 0x263c, UOrd); ("rightmoon", 0x263d, UOrd); ("leftmoon", 0x263e, UOrd);
   ("female", 0x2640, UOrd); ("male", 0x2642, UOrd); ("spadesuit", 0x2660, UOrd); ("heartsuit", 0x2661, UOrd);
   ("diamondsuit", 0x2662, UOrd); ("clubsuit", 0x2663, UOrd); ("varspadesuit", 0x2664, UOrd); ("varheartsuit", 0x2665, UOrd);
   ("vardiamondsuit", 0x2666, UOrd); ("varclubsuit", 0x2667, UOrd); ("quarternote", 0x2669, UOrd); ("eighthnote", 0x266a, UOrd);
   ("twonotes", 0x266b, UOrd); ("flat", 0x266d, UOrd); ("natural", 0x266e, UOrd); ("sharp", 0x266f, UOrd);
   ("acidfree", 0x267e, UOrd); ("dicei", 0x2680, UOrd); ("diceii", 0x2681, UOrd); ("diceiii", 0x2682, UOrd);
   ("diceiv", 0x2683, UOrd); ("dicev", 0x2684, UOrd); ("dicevi", 0x2685, UOrd); ("circledrightdot", 0x2686, UOrd);
   ("circledtwodots", 0x2687, UOrd); ("blackcircledrightdot", 0x2688, UOrd); ("blackcircledtwodots", 0x2689, UOrd);
   ("Hermaphrodite", 0x26a5, UOrd); ("mdwhtcircle", 0x26aa, UOrd); ("mdblkcircle", 0x26ab, UOrd); ("mdsmwhtcircle", 0x26ac, UOrd);
   ("neuter", 0x26b2, UOrd); ("checkmark", 0x2713, UOrd); ("maltese", 0x2720, UOrd); ("circledstar", 0x272a, UOrd);
   ("varstar", 0x2736, UOrd); ("dingasterisk", 0x273d, UOrd); ("lbrbrak", 0x2772, UOpen); ("rbrbrak", 0x2773, UClose);
   ("draftingarrow", 0x279b, UOrd); ("threedangle", 0x27c0, UOrd); ("whiteinwhitetriangle", 0x27c1, UOrd); ("perp", 0x27c2, URel);
   ("subsetcirc", 0x27c3, UOrd); ("supsetcirc", 0x27c4, UOrd); ("lbag", 0x27c5, UOpen); ("rbag", 0x27c6, UClose);
   ("veedot", 0x27c7, UBin); ("bsolhsub", 0x27c8, URel); ("suphsol", 0x27c9, URel); ("diagup", 0x27cb, UOrd);
   ("longdivision", 0x27cc, UOpen); ("diagdown", 0x27cd, UOrd); ("diamondcdot", 0x27d0, UOrd); ("wedgedot", 0x27d1, UBin);
   ("upin", 0x27d2, URel); ("pullback", 0x27d3, URel); ("pushout", 0x27d4, URel); ("leftouterjoin", 0x27d5, UOp);
   ("rightouterjoin", 0x27d6, UOp); ("fullouterjoin", 0x27d7, UOp); ("bigbot", 0x27d8, UOp); ("bigtop", 0x27d9, UOp);
   ("DashVDash", 0x27da, URel); ("dashVdash", 0x27db, URel); ("multimapinv", 0x27dc, URel); ("vlongdash", 0x27dd, URel);
   ("longdashv", 0x27de, URel); ("cirbot", 0x27df, URel); ("lozengeminus", 0x27e0, UBin); ("concavediamond", 0x27e1, UBin);
   ("concavediamondtickleft", 0x27e2, UBin); ("concavediamondtickright", 0x27e3, UBin); ("whitesquaretickleft", 0x27e4, UBin);
   ("whitesquaretickright", 0x27e5, UBin); ("lBrack", 0x27e6, UOpen); ("rBrack", 0x27e7, UClose); ("langle", 0x27e8, UOpen);
   ("rangle", 0x27e9, UClose); ("lAngle", 0x27ea, UOpen); ("rAngle", 0x27eb, UClose); ("Lbrbrak", 0x27ec, UOpen);
   ("Rbrbrak", 0x27ed, UClose); ("lgroup", 0x27ee, UOpen); ("rgroup", 0x27ef, UClose); ("UUparrow", 0x27f0, URel);
   ("DDownarrow", 0x27f1, URel); ("acwgapcirclearrow", 0x27f2, URel); ("cwgapcirclearrow", 0x27f3, URel);
   ("rightarrowonoplus", 0x27f4, URel); ("longleftarrow", 0x27f5, URel); ("longrightarrow", 0x27f6, URel);
   ("longleftrightarrow", 0x27f7, URel); ("Longleftarrow", 0x27f8, URel); ("Longrightarrow", 0x27f9, URel);
   ("Longleftrightarrow", 0x27fa, URel); ("longmapsfrom", 0x27fb, URel); ("longmapsto", 0x27fc, URel);
   ("Longmapsfrom", 0x27fd, URel); ("Longmapsto", 0x27fe, URel); ("longrightsquigarrow", 0x27ff, URel);
   ("nvtwoheadrightarrow", 0x2900, URel); ("nVtwoheadrightarrow", 0x2901, URel); ("nvLeftarrow", 0x2902, URel);
   ("nvRightarrow", 0x2903, URel); ("nvLeftrightarrow", 0x2904, URel); ("twoheadmapsto", 0x2905, URel); ("Mapsfrom", 0x2906, URel);
   ("Mapsto", 0x2907, URel); ("downarrowbarred", 0x2908, URel); ("uparrowbarred", 0x2909, URel); ("Uuparrow", 0x290a, URel);
   ("Ddownarrow", 0x290b, URel); ("leftbkarrow", 0x290c, URel); ("rightbkarrow", 0x290d, URel); ("leftdbkarrow", 0x290e, URel);
   ("dbkarrow", 0x290f, URel); ("drbkarrow", 0x2910, URel); ("rightdotarrow", 0x2911, URel); ("baruparrow", 0x2912, URel);
   ("downarrowbar", 0x2913, URel); ("nvrightarrowtail", 0x2914, URel); ("nVrightarrowtail", 0x2915, URel);
   ("twoheadrightarrowtail", 0x2916, URel); ("nvtwoheadrightarrowtail", 0x2917, URel); ("nVtwoheadrightarrowtail", 0x2918, URel);
   ("lefttail", 0x2919, URel); ("righttail", 0x291a, URel); ("leftdbltail", 0x291b, URel); ("rightdbltail", 0x291c, URel);
   ("diamondleftarrow", 0x291d, URel); ("rightarrowdiamond", 0x291e, URel); ("diamondleftarrowbar", 0x291f, URel);
   ("barrightarrowdiamond", 0x2920, URel); ("nwsearrow", 0x2921, URel); ("neswarrow", 0x2922, URel); ("hknwarrow", 0x2923, URel);
   ("hknearrow", 0x2924, URel); ("hksearrow", 0x2925, URel); ("hkswarrow", 0x2926, URel); ("tona", 0x2927, URel);
   ("toea", 0x2928, URel); ("tosa", 0x2929, URel); ("towa", 0x292a, URel); ("rdiagovfdiag", 0x292b, UOrd);
   ("fdiagovrdiag", 0x292c, UOrd); ("seovnearrow", 0x292d, UOrd); ("neovsearrow", 0x292e, UOrd); ("fdiagovnearrow", 0x292f, UOrd);
   ("rdiagovsearrow", 0x2930, UOrd); ("neovnwarrow", 0x2931, UOrd); ("nwovnearrow", 0x2932, UOrd);
   ("rightcurvedarrow", 0x2933, URel); ("uprightcurvearrow", 0x2934, UOrd); ("downrightcurvedarrow", 0x2935, UOrd);
   ("leftdowncurvedarrow", 0x2936, URel); ("rightdowncurvedarrow", 0x2937, URel); ("cwrightarcarrow", 0x2938, URel);
   ("acwleftarcarrow", 0x2939, URel); ("acwoverarcarrow", 0x293a, URel); ("acwunderarcarrow", 0x293b, URel);
   ("curvearrowrightminus", 0x293c, URel); ("curvearrowleftplus", 0x293d, URel); ("cwundercurvearrow", 0x293e, URel);
   ("ccwundercurvearrow", 0x293f, URel); ("acwcirclearrow", 0x2940, URel); ("cwcirclearrow", 0x2941, URel);
   ("rightarrowshortleftarrow", 0x2942, URel); ("leftarrowshortrightarrow", 0x2943, URel);
   ("shortrightarrowleftarrow", 0x2944, URel); ("rightarrowplus", 0x2945, URel); ("leftarrowplus", 0x2946, URel);
   ("rightarrowx", 0x2947, URel); ("leftrightarrowcircle", 0x2948, URel); ("twoheaduparrowcircle", 0x2949, URel);
   ("leftrightharpoonupdown", 0x294a, URel); ("leftrightharpoondownup", 0x294b, URel); ("updownharpoonrightleft", 0x294c, URel);
   ("updownharpoonleftright", 0x294d, URel); ("leftrightharpoonupup", 0x294e, URel); ("updownharpoonrightright", 0x294f, URel);
   ("leftrightharpoondowndown", 0x2950, URel); ("updownharpoonleftleft", 0x2951, URel); ("barleftharpoonup", 0x2952, URel);
   ("rightharpoonupbar", 0x2953, URel); ("barupharpoonright", 0x2954, URel); ("downharpoonrightbar", 0x2955, URel);
   ("barleftharpoondown", 0x2956, URel); ("rightharpoondownbar", 0x2957, URel); ("barupharpoonleft", 0x2958, URel);
   ("downharpoonleftbar", 0x2959, URel); ("leftharpoonupbar", 0x295a, URel); ("barrightharpoonup", 0x295b, URel);
   ("upharpoonrightbar", 0x295c, URel); ("bardownharpoonright", 0x295d, URel); ("leftharpoondownbar", 0x295e, URel);
   ("barrightharpoondown", 0x295f, URel); ("upharpoonleftbar", 0x2960, URel); ("bardownharpoonleft", 0x2961, URel);
   ("leftharpoonsupdown", 0x2962, URel); ("upharpoonsleftright", 0x2963, URel); ("rightharpoonsupdown", 0x2964, URel);
   ("downharpoonsleftright", 0x2965, URel); ("leftrightharpoonsup", 0x2966, URel); ("leftrightharpoonsdown", 0x2967, URel);
   ("rightleftharpoonsup", 0x2968, URel); ("rightleftharpoonsdown", 0x2969, URel); ("leftharpoonupdash", 0x296a, URel);
   ("dashleftharpoondown", 0x296b, URel); ("rightharpoonupdash", 0x296c, URel); ("dashrightharpoondown", 0x296d, URel);
   ("updownharpoonsleftright", 0x296e, URel); ("downupharpoonsleftright", 0x296f, URel); ("rightimply", 0x2970, URel);
   ("equalrightarrow", 0x2971, URel); ("similarrightarrow", 0x2972, URel); ("leftarrowsimilar", 0x2973, URel);
   ("rightarrowsimilar", 0x2974, URel); ("rightarrowapprox", 0x2975, URel); ("ltlarr", 0x2976, URel);
   ("leftarrowless", 0x2977, URel); ("gtrarr", 0x2978, URel); ("subrarr", 0x2979, URel); ("leftarrowsubset", 0x297a, URel);
   ("suplarr", 0x297b, URel); ("leftfishtail", 0x297c, URel); ("rightfishtail", 0x297d, URel); ("upfishtail", 0x297e, URel);
   ("downfishtail", 0x297f, URel); ("Vvert", 0x2980, UFence); ("mdsmblkcircle", 0x2981, UOrd); ("typecolon", 0x2982, URel);
   ("lBrace", 0x2983, UOpen); ("rBrace", 0x2984, UClose); ("lParen", 0x2985, UOpen); ("rParen", 0x2986, UClose);
   ("llparenthesis", 0x2987, UOpen); ("rrparenthesis", 0x2988, UClose); ("llangle", 0x2989, UOpen); ("rrangle", 0x298a, UClose);
   ("lbrackubar", 0x298b, UOpen); ("rbrackubar", 0x298c, UClose); ("lbrackultick", 0x298d, UOpen);
   ("rbracklrtick", 0x298e, UClose); ("lbracklltick", 0x298f, UOpen); ("rbrackurtick", 0x2990, UClose);
   ("langledot", 0x2991, UOpen); ("rangledot", 0x2992, UClose); ("lparenless", 0x2993, UOpen); ("rparengtr", 0x2994, UClose);
   ("Lparengtr", 0x2995, UOpen); ("Rparenless", 0x2996, UClose); ("lblkbrbrak", 0x2997, UOpen); ("rblkbrbrak", 0x2998, UClose);
   ("fourvdots", 0x2999, UOrd); ("vzigzag", 0x299a, UOrd); ("measuredangleleft", 0x299b, UOrd); ("rightanglesqr", 0x299c, UOrd);
   ("rightanglemdot", 0x299d, UOrd); ("angles", 0x299e, UOrd); ("angdnr", 0x299f, UOrd); ("gtlpar", 0x29a0, UOrd);
   ("sphericalangleup", 0x29a1, UOrd); ("turnangle", 0x29a2, UOrd); ("revangle", 0x29a3, UOrd); ("angleubar", 0x29a4, UOrd);
   ("revangleubar", 0x29a5, UOrd); ("wideangledown", 0x29a6, UOrd); ("wideangleup", 0x29a7, UOrd);
   ("measanglerutone", 0x29a8, UOrd); ("measanglelutonw", 0x29a9, UOrd); ("measanglerdtose", 0x29aa, UOrd);
   ("measangleldtosw", 0x29ab, UOrd); ("measangleurtone", 0x29ac, UOrd); ("measangleultonw", 0x29ad, UOrd);
   ("measangledrtose", 0x29ae, UOrd); ("measangledltosw", 0x29af, UOrd); ("revemptyset", 0x29b0, UOrd);
   ("emptysetobar", 0x29b1, UOrd); ("emptysetocirc", 0x29b2, UOrd); ("emptysetoarr", 0x29b3, UOrd);
   ("emptysetoarrl", 0x29b4, UOrd); ("circlehbar", 0x29b5, UBin); ("circledvert", 0x29b6, UBin); ("circledparallel", 0x29b7, UBin);
   ("obslash", 0x29b8, UBin); ("operp", 0x29b9, UBin); ("obot", 0x29ba, UOrd); ("olcross", 0x29bb, UOrd);
   ("odotslashdot", 0x29bc, UOrd); ("uparrowoncircle", 0x29bd, UOrd); ("circledwhitebullet", 0x29be, UOrd);
   ("circledbullet", 0x29bf, UOrd); ("olessthan", 0x29c0, UBin); ("ogreaterthan", 0x29c1, UBin); ("cirscir", 0x29c2, UOrd);
   ("cirE", 0x29c3, UOrd); ("boxdiag", 0x29c4, UBin); ("boxbslash", 0x29c5, UBin); ("boxast", 0x29c6, UBin);
   ("boxcircle", 0x29c7, UBin); ("boxbox", 0x29c8, UBin); ("boxonbox", 0x29c9, UOrd); ("triangleodot", 0x29ca, UOrd);
   ("triangleubar", 0x29cb, UOrd); ("triangles", 0x29cc, UOrd); ("triangleserifs", 0x29cd, UBin); ("rtriltri", 0x29ce, URel);
   ("ltrivb", 0x29cf, URel); ("vbrtri", 0x29d0, URel); ("lfbowtie", 0x29d1, URel); ("rfbowtie", 0x29d2, URel);
   ("fbowtie", 0x29d3, URel); ("lftimes", 0x29d4, URel); ("rftimes", 0x29d5, URel); ("hourglass", 0x29d6, UBin);
   ("blackhourglass", 0x29d7, UBin); ("lvzigzag", 0x29d8, UOpen); ("rvzigzag", 0x29d9, UClose); ("Lvzigzag", 0x29da, UOpen);
   ("Rvzigzag", 0x29db, UClose); ("iinfin", 0x29dc, UOrd); ("tieinfty", 0x29dd, UOrd); ("nvinfty", 0x29de, UOrd);
   ("dualmap", 0x29df, URel); ("laplac", 0x29e0, UOrd); ("lrtriangleeq", 0x29e1, URel); ("shuffle", 0x29e2, UBin);
   ("eparsl", 0x29e3, URel); ("smeparsl", 0x29e4, URel); ("eqvparsl", 0x29e5, URel); ("gleichstark", 0x29e6, URel);
   ("thermod", 0x29e7, UOrd); ("downtriangleleftblack", 0x29e8, UOrd); ("downtrianglerightblack", 0x29e9, UOrd);
   ("blackdiamonddownarrow", 0x29ea, UOrd); ("mdlgblklozenge", 0x29eb, UBin); ("circledownarrow", 0x29ec, UOrd);
   ("blackcircledownarrow", 0x29ed, UOrd); ("errbarsquare", 0x29ee, UOrd); ("errbarblacksquare", 0x29ef, UOrd);
   ("errbardiamond", 0x29f0, UOrd); ("errbarblackdiamond", 0x29f1, UOrd); ("errbarcircle", 0x29f2, UOrd);
   ("errbarblackcircle", 0x29f3, UOrd); ("ruledelayed", 0x29f4, URel); ("reversesolidus", 0x29f5, UBin); ("dsol", 0x29f6, UBin);
   ("rsolbar", 0x29f7, UBin); ("xsol", 0x29f8, UOp); ("xbsol", 0x29f9, UOp); ("doubleplus", 0x29fa, UBin);
   ("tripleplus", 0x29fb, UBin); ("lcurvyangle", 0x29fc, UOpen); ("rcurvyangle", 0x29fd, UClose); ("tplus", 0x29fe, UBin);
   ("tminus", 0x29ff, UBin); ("bigodot", 0x2a00, UOp); ("bigoplus", 0x2a01, UOp); ("bigotimes", 0x2a02, UOp);
   ("bigcupdot", 0x2a03, UOp); ("biguplus", 0x2a04, UOp); ("bigsqcap", 0x2a05, UOp); ("bigsqcup", 0x2a06, UOp);
   ("conjquant", 0x2a07, UOp); ("disjquant", 0x2a08, UOp); ("bigtimes", 0x2a09, UOp); ("modtwosum", 0x2a0a, UOp);
   ("sumint", 0x2a0b, UOp); ("iiiint", 0x2a0c, UOp); ("intbar", 0x2a0d, UOp); ("intBar", 0x2a0e, UOp); ("fint", 0x2a0f, UOp);
   ("cirfnint", 0x2a10, UOp); ("awint", 0x2a11, UOp); ("rppolint", 0x2a12, UOp); ("scpolint", 0x2a13, UOp);
   ("npolint", 0x2a14, UOp); ("pointint", 0x2a15, UOp); ("sqint", 0x2a16, UOp); ("intlarhk", 0x2a17, UOp); ("intx", 0x2a18, UOp);
   ("intcap", 0x2a19, UOp); ("intcup", 0x2a1a, UOp); ("upint", 0x2a1b, UOp); ("lowint", 0x2a1c, UOp); ("Join", 0x2a1d, UOp);
   ("bigtriangleleft", 0x2a1e, UOp); ("zcmp", 0x2a1f, UOp); ("zpipe", 0x2a20, UOp); ("zproject", 0x2a21, UOp);
   ("ringplus", 0x2a22, UBin); ("plushat", 0x2a23, UBin); ("simplus", 0x2a24, UBin); ("plusdot", 0x2a25, UBin);
   ("plussim", 0x2a26, UBin); ("plussubtwo", 0x2a27, UBin); ("plustrif", 0x2a28, UBin); ("commaminus", 0x2a29, UBin);
   ("minusdot", 0x2a2a, UBin); ("minusfdots", 0x2a2b, UBin); ("minusrdots", 0x2a2c, UBin); ("opluslhrim", 0x2a2d, UBin);
   ("oplusrhrim", 0x2a2e, UBin); ("vectimes", 0x2a2f, UBin); ("dottimes", 0x2a30, UBin); ("timesbar", 0x2a31, UBin);
   ("btimes", 0x2a32, UBin); ("smashtimes", 0x2a33, UBin); ("otimeslhrim", 0x2a34, UBin); ("otimesrhrim", 0x2a35, UBin);
   ("otimeshat", 0x2a36, UBin); ("Otimes", 0x2a37, UBin); ("odiv", 0x2a38, UBin); ("triangleplus", 0x2a39, UBin);
   ("triangleminus", 0x2a3a, UBin); ("triangletimes", 0x2a3b, UBin); ("intprod", 0x2a3c, UBin); ("intprodr", 0x2a3d, UBin);
   ("fcmp", 0x2a3e, UBin); ("amalg", 0x2a3f, UBin); ("capdot", 0x2a40, UBin); ("uminus", 0x2a41, UBin); ("barcup", 0x2a42, UBin);
   ("barcap", 0x2a43, UBin); ("capwedge", 0x2a44, UBin); ("cupvee", 0x2a45, UBin); ("cupovercap", 0x2a46, UBin);
   ("capovercup", 0x2a47, UBin); ("cupbarcap", 0x2a48, UBin); ("capbarcup", 0x2a49, UBin); ("twocups", 0x2a4a, UBin);
   ("twocaps", 0x2a4b, UBin); ("closedvarcup", 0x2a4c, UBin); ("closedvarcap", 0x2a4d, UBin); ("Sqcap", 0x2a4e, UBin);
   ("Sqcup", 0x2a4f, UBin); ("closedvarcupsmashprod", 0x2a50, UBin); ("wedgeodot", 0x2a51, UBin); ("veeodot", 0x2a52, UBin);
   ("Wedge", 0x2a53, UBin); ("Vee", 0x2a54, UBin); ("wedgeonwedge", 0x2a55, UBin); ("veeonvee", 0x2a56, UBin);
   ("bigslopedvee", 0x2a57, UBin); ("bigslopedwedge", 0x2a58, UBin); ("veeonwedge", 0x2a59, URel); ("wedgemidvert", 0x2a5a, UBin);
   ("veemidvert", 0x2a5b, UBin); ("midbarwedge", 0x2a5c, UBin); ("midbarvee", 0x2a5d, UBin); ("doublebarwedge", 0x2a5e, UBin);
   ("wedgebar", 0x2a5f, UBin); ("wedgedoublebar", 0x2a60, UBin); ("varveebar", 0x2a61, UBin); ("doublebarvee", 0x2a62, UBin);
   ("veedoublebar", 0x2a63, UBin); ("dsub", 0x2a64, UBin); ("rsub", 0x2a65, UBin); ("eqdot", 0x2a66, URel);
   ("dotequiv", 0x2a67, URel); ("equivVert", 0x2a68, URel); ("equivVvert", 0x2a69, URel); ("dotsim", 0x2a6a, URel);
   ("simrdots", 0x2a6b, URel); ("simminussim", 0x2a6c, URel); ("congdot", 0x2a6d, URel); ("asteq", 0x2a6e, URel);
   ("hatapprox", 0x2a6f, URel); ("approxeqq", 0x2a70, URel); ("eqqplus", 0x2a71, UBin); ("pluseqq", 0x2a72, UBin);
   ("eqqsim", 0x2a73, URel); ("Coloneq", 0x2a74, URel); ("eqeq", 0x2a75, URel); ("eqeqeq", 0x2a76, URel);
   ("ddotseq", 0x2a77, URel); ("equivDD", 0x2a78, URel); ("ltcir", 0x2a79, URel); ("gtcir", 0x2a7a, URel);
   ("ltquest", 0x2a7b, URel); ("gtquest", 0x2a7c, URel); ("leqslant", 0x2a7d, URel); ("geqslant", 0x2a7e, URel);
   ("lesdot", 0x2a7f, URel); ("gesdot", 0x2a80, URel); ("lesdoto", 0x2a81, URel); ("gesdoto", 0x2a82, URel);
   ("lesdotor", 0x2a83, URel); ("gesdotol", 0x2a84, URel); ("lessapprox", 0x2a85, URel); ("gtrapprox", 0x2a86, URel);
   ("lneq", 0x2a87, URel); ("gneq", 0x2a88, URel); ("lnapprox", 0x2a89, URel); ("gnapprox", 0x2a8a, URel);
   ("lesseqqgtr", 0x2a8b, URel); ("gtreqqless", 0x2a8c, URel); ("lsime", 0x2a8d, URel); ("gsime", 0x2a8e, URel);
   ("lsimg", 0x2a8f, URel); ("gsiml", 0x2a90, URel); ("lgE", 0x2a91, URel); ("glE", 0x2a92, URel); ("lesges", 0x2a93, URel);
   ("gesles", 0x2a94, URel); ("eqslantless", 0x2a95, URel); ("eqslantgtr", 0x2a96, URel); ("elsdot", 0x2a97, URel);
   ("egsdot", 0x2a98, URel); ("eqqless", 0x2a99, URel); ("eqqgtr", 0x2a9a, URel); ("eqqslantless", 0x2a9b, URel);
   ("eqqslantgtr", 0x2a9c, URel); ("simless", 0x2a9d, URel); ("simgtr", 0x2a9e, URel); ("simlE", 0x2a9f, URel);
   ("simgE", 0x2aa0, URel); ("Lt", 0x2aa1, URel); ("Gt", 0x2aa2, URel); ("partialmeetcontraction", 0x2aa3, URel);
   ("glj", 0x2aa4, URel); ("gla", 0x2aa5, URel); ("ltcc", 0x2aa6, URel); ("gtcc", 0x2aa7, URel); ("lescc", 0x2aa8, URel);
   ("gescc", 0x2aa9, URel); ("smt", 0x2aaa, URel); ("lat", 0x2aab, URel); ("smte", 0x2aac, URel); ("late", 0x2aad, URel);
   ("bumpeqq", 0x2aae, URel); ("preceq", 0x2aaf, URel); ("succeq", 0x2ab0, URel); ("precneq", 0x2ab1, URel);
   ("succneq", 0x2ab2, URel); ("preceqq", 0x2ab3, URel); ("succeqq", 0x2ab4, URel); ("precneqq", 0x2ab5, URel);
   ("succneqq", 0x2ab6, URel); ("precapprox", 0x2ab7, URel); ("succapprox", 0x2ab8, URel); ("precnapprox", 0x2ab9, URel);
   ("succnapprox", 0x2aba, URel); ("Prec", 0x2abb, URel); ("Succ", 0x2abc, URel); ("subsetdot", 0x2abd, URel);
   ("supsetdot", 0x2abe, URel); ("subsetplus", 0x2abf, URel); ("supsetplus", 0x2ac0, URel); ("submult", 0x2ac1, URel);
   ("supmult", 0x2ac2, URel); ("subedot", 0x2ac3, URel); ("supedot", 0x2ac4, URel); ("subseteqq", 0x2ac5, URel);
   ("supseteqq", 0x2ac6, URel); ("subsim", 0x2ac7, URel); ("supsim", 0x2ac8, URel); ("subsetapprox", 0x2ac9, URel);
   ("supsetapprox", 0x2aca, URel); ("subsetneqq", 0x2acb, URel); ("supsetneqq", 0x2acc, URel); ("lsqhook", 0x2acd, URel);
   ("rsqhook", 0x2ace, URel); ("csub", 0x2acf, URel); ("csup", 0x2ad0, URel); ("csube", 0x2ad1, URel); ("csupe", 0x2ad2, URel);
   ("subsup", 0x2ad3, URel); ("supsub", 0x2ad4, URel); ("subsub", 0x2ad5, URel); ("supsup", 0x2ad6, URel);
   ("suphsub", 0x2ad7, URel); ("supdsub", 0x2ad8, URel); ("forkv", 0x2ad9, URel); ("topfork", 0x2ada, URel);
   ("mlcp", 0x2adb, URel); ("forks", 0x2adc, URel); ("forksnot", 0x2add, URel); ("shortlefttack", 0x2ade, URel);
   ("shortdowntack", 0x2adf, URel); ("shortuptack", 0x2ae0, URel); ("perps", 0x2ae1, UOrd); ("vDdash", 0x2ae2, URel);
   ("dashV", 0x2ae3, URel); ("Dashv", 0x2ae4, URel); ("DashV", 0x2ae5, URel); ("varVdash", 0x2ae6, URel); ("Barv", 0x2ae7, URel);
   ("vBar", 0x2ae8, URel); ("vBarv", 0x2ae9, URel); ("barV", 0x2aea, URel); ("Vbar", 0x2aeb, URel); ("Not", 0x2aec, URel);
   ("bNot", 0x2aed, URel); ("revnmid", 0x2aee, URel); ("cirmid", 0x2aef, URel); ("midcir", 0x2af0, URel); ("topcir", 0x2af1, UOrd);
   ("nhpar", 0x2af2, URel); ("parsim", 0x2af3, URel); ("interleave", 0x2af4, UBin); ("nhVvert", 0x2af5, UBin);
   ("threedotcolon", 0x2af6, UBin); ("lllnest", 0x2af7, URel); ("gggnest", 0x2af8, URel); ("leqqslant", 0x2af9, URel);
   ("geqqslant", 0x2afa, URel); ("trslash", 0x2afb, UBin); ("biginterleave", 0x2afc, UOp); ("sslash", 0x2afd, UBin);
   ("talloblong", 0x2afe, UBin); ("bigtalloblong", 0x2aff, UOp); ("squaretopblack", 0x2b12, UOrd);
   ("squarebotblack", 0x2b13, UOrd); ("squareurblack", 0x2b14, UOrd); ("squarellblack", 0x2b15, UOrd);
   ("diamondleftblack", 0x2b16, UOrd); ("diamondrightblack", 0x2b17, UOrd); ("diamondtopblack", 0x2b18, UOrd);
   ("diamondbotblack", 0x2b19, UOrd); ("dottedsquare", 0x2b1a, UOrd); ("lgblksquare", 0x2b1b, UOrd); ("lgwhtsquare", 0x2b1c, UOrd);
   ("vysmblksquare", 0x2b1d, UOrd); ("vysmwhtsquare", 0x2b1e, UOrd); ("pentagonblack", 0x2b1f, UOrd); ("pentagon", 0x2b20, UOrd);
   ("varhexagon", 0x2b21, UOrd); ("varhexagonblack", 0x2b22, UOrd); ("hexagonblack", 0x2b23, UOrd); ("lgblkcircle", 0x2b24, UOrd);
   ("mdblkdiamond", 0x2b25, UOrd); ("mdwhtdiamond", 0x2b26, UOrd); ("mdblklozenge", 0x2b27, UOrd); ("mdwhtlozenge", 0x2b28, UOrd);
   ("smblkdiamond", 0x2b29, UOrd); ("smblklozenge", 0x2b2a, UOrd); ("smwhtlozenge", 0x2b2b, UOrd); ("blkhorzoval", 0x2b2c, UOrd);
   ("whthorzoval", 0x2b2d, UOrd); ("blkvertoval", 0x2b2e, UOrd); ("whtvertoval", 0x2b2f, UOrd);
   ("circleonleftarrow", 0x2b30, URel); ("leftthreearrows", 0x2b31, URel); ("leftarrowonoplus", 0x2b32, URel);
   ("longleftsquigarrow", 0x2b33, URel); ("nvtwoheadleftarrow", 0x2b34, URel); ("nVtwoheadleftarrow", 0x2b35, URel);
   ("twoheadmapsfrom", 0x2b36, URel); ("twoheadleftdbkarrow", 0x2b37, URel); ("leftdotarrow", 0x2b38, URel);
   ("nvleftarrowtail", 0x2b39, URel); ("nVleftarrowtail", 0x2b3a, URel); ("twoheadleftarrowtail", 0x2b3b, URel);
   ("nvtwoheadleftarrowtail", 0x2b3c, URel); ("nVtwoheadleftarrowtail", 0x2b3d, URel); ("leftarrowx", 0x2b3e, URel);
   ("leftcurvedarrow", 0x2b3f, URel); ("equalleftarrow", 0x2b40, URel); ("bsimilarleftarrow", 0x2b41, URel);
   ("leftarrowbackapprox", 0x2b42, URel); ("rightarrowgtr", 0x2b43, URel); ("rightarrowsupset", 0x2b44, URel);
   ("LLeftarrow", 0x2b45, URel); ("RRightarrow", 0x2b46, URel); ("bsimilarrightarrow", 0x2b47, URel);
   ("rightarrowbackapprox", 0x2b48, URel); ("similarleftarrow", 0x2b49, URel); ("leftarrowapprox", 0x2b4a, URel);
   ("leftarrowbsimilar", 0x2b4b, URel); ("rightarrowbsimilar", 0x2b4c, URel); ("medwhitestar", 0x2b50, UOrd);
   ("medblackstar", 0x2b51, UOrd); ("smwhitestar", 0x2b52, UOrd); ("rightpentagonblack", 0x2b53, UOrd);
   ("rightpentagon", 0x2b54, UOrd); ("postalmark", 0x3012, UOrd); ("hzigzag", 0x3030, UOrd); ("mbfA", 0x1d400, UAlpha);
   ("mbfB", 0x1d401, UAlpha); ("mbfC", 0x1d402, UAlpha); ("mbfD", 0x1d403, UAlpha); ("mbfE", 0x1d404, UAlpha);
   ("mbfF", 0x1d405, UAlpha); ("mbfG", 0x1d406, UAlpha); ("mbfH", 0x1d407, UAlpha); ("mbfI", 0x1d408, UAlpha);
   ("mbfJ", 0x1d409, UAlpha); ("mbfK", 0x1d40a, UAlpha); ("mbfL", 0x1d40b, UAlpha); ("mbfM", 0x1d40c, UAlpha);
   ("mbfN", 0x1d40d, UAlpha); ("mbfO", 0x1d40e, UAlpha); ("mbfP", 0x1d40f, UAlpha); ("mbfQ", 0x1d410, UAlpha);
   ("mbfR", 0x1d411, UAlpha); ("mbfS", 0x1d412, UAlpha); ("mbfT", 0x1d413, UAlpha); ("mbfU", 0x1d414, UAlpha);
   ("mbfV", 0x1d415, UAlpha); ("mbfW", 0x1d416, UAlpha); ("mbfX", 0x1d417, UAlpha); ("mbfY", 0x1d418, UAlpha);
   ("mbfZ", 0x1d419, UAlpha); ("mbfa", 0x1d41a, UAlpha); ("mbfb", 0x1d41b, UAlpha); ("mbfc", 0x1d41c, UAlpha);
   ("mbfd", 0x1d41d, UAlpha); ("mbfe", 0x1d41e, UAlpha); ("mbff", 0x1d41f, UAlpha); ("mbfg", 0x1d420, UAlpha);
   ("mbfh", 0x1d421, UAlpha); ("mbfi", 0x1d422, UAlpha); ("mbfj", 0x1d423, UAlpha); ("mbfk", 0x1d424, UAlpha);
   ("mbfl", 0x1d425, UAlpha); ("mbfm", 0x1d426, UAlpha); ("mbfn", 0x1d427, UAlpha); ("mbfo", 0x1d428, UAlpha);
   ("mbfp", 0x1d429, UAlpha); ("mbfq", 0x1d42a, UAlpha); ("mbfr", 0x1d42b, UAlpha); ("mbfs", 0x1d42c, UAlpha);
   ("mbft", 0x1d42d, UAlpha); ("mbfu", 0x1d42e, UAlpha); ("mbfv", 0x1d42f, UAlpha); ("mbfw", 0x1d430, UAlpha);
   ("mbfx", 0x1d431, UAlpha); ("mbfy", 0x1d432, UAlpha); ("mbfz", 0x1d433, UAlpha); ("mitA", 0x1d434, UAlpha);
   ("mitB", 0x1d435, UAlpha); ("mitC", 0x1d436, UAlpha); ("mitD", 0x1d437, UAlpha); ("mitE", 0x1d438, UAlpha);
   ("mitF", 0x1d439, UAlpha); ("mitG", 0x1d43a, UAlpha); ("mitH", 0x1d43b, UAlpha); ("mitI", 0x1d43c, UAlpha);
   ("mitJ", 0x1d43d, UAlpha); ("mitK", 0x1d43e, UAlpha); ("mitL", 0x1d43f, UAlpha); ("mitM", 0x1d440, UAlpha);
   ("mitN", 0x1d441, UAlpha); ("mitO", 0x1d442, UAlpha); ("mitP", 0x1d443, UAlpha); ("mitQ", 0x1d444, UAlpha);
   ("mitR", 0x1d445, UAlpha); ("mitS", 0x1d446, UAlpha); ("mitT", 0x1d447, UAlpha); ("mitU", 0x1d448, UAlpha);
   ("mitV", 0x1d449, UAlpha); ("mitW", 0x1d44a, UAlpha); ("mitX", 0x1d44b, UAlpha); ("mitY", 0x1d44c, UAlpha);
   ("mitZ", 0x1d44d, UAlpha); ("mita", 0x1d44e, UAlpha); ("mitb", 0x1d44f, UAlpha); ("mitc", 0x1d450, UAlpha);
   ("mitd", 0x1d451, UAlpha); ("mite", 0x1d452, UAlpha); ("mitf", 0x1d453, UAlpha); ("mitg", 0x1d454, UAlpha);
   ("miti", 0x1d456, UAlpha); ("mitj", 0x1d457, UAlpha); ("mitk", 0x1d458, UAlpha); ("mitl", 0x1d459, UAlpha);
   ("mitm", 0x1d45a, UAlpha); ("mitn", 0x1d45b, UAlpha); ("mito", 0x1d45c, UAlpha); ("mitp", 0x1d45d, UAlpha);
   ("mitq", 0x1d45e, UAlpha); ("mitr", 0x1d45f, UAlpha); ("mits", 0x1d460, UAlpha); ("mitt", 0x1d461, UAlpha);
   ("mitu", 0x1d462, UAlpha); ("mitv", 0x1d463, UAlpha); ("mitw", 0x1d464, UAlpha); ("mitx", 0x1d465, UAlpha);
   ("mity", 0x1d466, UAlpha); ("mitz", 0x1d467, UAlpha); ("mbfitA", 0x1d468, UAlpha); ("mbfitB", 0x1d469, UAlpha);
   ("mbfitC", 0x1d46a, UAlpha); ("mbfitD", 0x1d46b, UAlpha); ("mbfitE", 0x1d46c, UAlpha); ("mbfitF", 0x1d46d, UAlpha);
   ("mbfitG", 0x1d46e, UAlpha); ("mbfitH", 0x1d46f, UAlpha); ("mbfitI", 0x1d470, UAlpha); ("mbfitJ", 0x1d471, UAlpha);
   ("mbfitK", 0x1d472, UAlpha); ("mbfitL", 0x1d473, UAlpha); ("mbfitM", 0x1d474, UAlpha); ("mbfitN", 0x1d475, UAlpha);
   ("mbfitO", 0x1d476, UAlpha); ("mbfitP", 0x1d477, UAlpha); ("mbfitQ", 0x1d478, UAlpha); ("mbfitR", 0x1d479, UAlpha);
   ("mbfitS", 0x1d47a, UAlpha); ("mbfitT", 0x1d47b, UAlpha); ("mbfitU", 0x1d47c, UAlpha); ("mbfitV", 0x1d47d, UAlpha);
   ("mbfitW", 0x1d47e, UAlpha); ("mbfitX", 0x1d47f, UAlpha); ("mbfitY", 0x1d480, UAlpha); ("mbfitZ", 0x1d481, UAlpha);
   ("mbfita", 0x1d482, UAlpha); ("mbfitb", 0x1d483, UAlpha); ("mbfitc", 0x1d484, UAlpha); ("mbfitd", 0x1d485, UAlpha);
   ("mbfite", 0x1d486, UAlpha); ("mbfitf", 0x1d487, UAlpha); ("mbfitg", 0x1d488, UAlpha); ("mbfith", 0x1d489, UAlpha);
   ("mbfiti", 0x1d48a, UAlpha); ("mbfitj", 0x1d48b, UAlpha); ("mbfitk", 0x1d48c, UAlpha); ("mbfitl", 0x1d48d, UAlpha);
   ("mbfitm", 0x1d48e, UAlpha); ("mbfitn", 0x1d48f, UAlpha); ("mbfito", 0x1d490, UAlpha); ("mbfitp", 0x1d491, UAlpha);
   ("mbfitq", 0x1d492, UAlpha); ("mbfitr", 0x1d493, UAlpha); ("mbfits", 0x1d494, UAlpha); ("mbfitt", 0x1d495, UAlpha);
   ("mbfitu", 0x1d496, UAlpha); ("mbfitv", 0x1d497, UAlpha); ("mbfitw", 0x1d498, UAlpha); ("mbfitx", 0x1d499, UAlpha);
   ("mbfity", 0x1d49a, UAlpha); ("mbfitz", 0x1d49b, UAlpha); ("mscrA", 0x1d49c, UAlpha); ("mscrC", 0x1d49e, UAlpha);
   ("mscrD", 0x1d49f, UAlpha); ("mscrG", 0x1d4a2, UAlpha); ("mscrJ", 0x1d4a5, UAlpha); ("mscrK", 0x1d4a6, UAlpha);
   ("mscrN", 0x1d4a9, UAlpha); ("mscrO", 0x1d4aa, UAlpha); ("mscrP", 0x1d4ab, UAlpha); ("mscrQ", 0x1d4ac, UAlpha);
   ("mscrS", 0x1d4ae, UAlpha); ("mscrT", 0x1d4af, UAlpha); ("mscrU", 0x1d4b0, UAlpha); ("mscrV", 0x1d4b1, UAlpha);
   ("mscrW", 0x1d4b2, UAlpha); ("mscrX", 0x1d4b3, UAlpha); ("mscrY", 0x1d4b4, UAlpha); ("mscrZ", 0x1d4b5, UAlpha);
   ("mscra", 0x1d4b6, UAlpha); ("mscrb", 0x1d4b7, UAlpha); ("mscrc", 0x1d4b8, UAlpha); ("mscrd", 0x1d4b9, UAlpha);
   ("mscrf", 0x1d4bb, UAlpha); ("mscrh", 0x1d4bd, UAlpha); ("mscri", 0x1d4be, UAlpha); ("mscrj", 0x1d4bf, UAlpha);
   ("mscrk", 0x1d4c0, UAlpha); ("mscrl", 0x1d4c1, UAlpha); ("mscrm", 0x1d4c2, UAlpha); ("mscrn", 0x1d4c3, UAlpha);
   ("mscrp", 0x1d4c5, UAlpha); ("mscrq", 0x1d4c6, UAlpha); ("mscrr", 0x1d4c7, UAlpha); ("mscrs", 0x1d4c8, UAlpha);
   ("mscrt", 0x1d4c9, UAlpha); ("mscru", 0x1d4ca, UAlpha); ("mscrv", 0x1d4cb, UAlpha); ("mscrw", 0x1d4cc, UAlpha);
   ("mscrx", 0x1d4cd, UAlpha); ("mscry", 0x1d4ce, UAlpha); ("mscrz", 0x1d4cf, UAlpha); ("mbfscrA", 0x1d4d0, UAlpha);
   ("mbfscrB", 0x1d4d1, UAlpha); ("mbfscrC", 0x1d4d2, UAlpha); ("mbfscrD", 0x1d4d3, UAlpha); ("mbfscrE", 0x1d4d4, UAlpha);
   ("mbfscrF", 0x1d4d5, UAlpha); ("mbfscrG", 0x1d4d6, UAlpha); ("mbfscrH", 0x1d4d7, UAlpha); ("mbfscrI", 0x1d4d8, UAlpha);
   ("mbfscrJ", 0x1d4d9, UAlpha); ("mbfscrK", 0x1d4da, UAlpha); ("mbfscrL", 0x1d4db, UAlpha); ("mbfscrM", 0x1d4dc, UAlpha);
   ("mbfscrN", 0x1d4dd, UAlpha); ("mbfscrO", 0x1d4de, UAlpha); ("mbfscrP", 0x1d4df, UAlpha); ("mbfscrQ", 0x1d4e0, UAlpha);
   ("mbfscrR", 0x1d4e1, UAlpha); ("mbfscrS", 0x1d4e2, UAlpha); ("mbfscrT", 0x1d4e3, UAlpha); ("mbfscrU", 0x1d4e4, UAlpha);
   ("mbfscrV", 0x1d4e5, UAlpha); ("mbfscrW", 0x1d4e6, UAlpha); ("mbfscrX", 0x1d4e7, UAlpha); ("mbfscrY", 0x1d4e8, UAlpha);
   ("mbfscrZ", 0x1d4e9, UAlpha); ("mbfscra", 0x1d4ea, UAlpha); ("mbfscrb", 0x1d4eb, UAlpha); ("mbfscrc", 0x1d4ec, UAlpha);
   ("mbfscrd", 0x1d4ed, UAlpha); ("mbfscre", 0x1d4ee, UAlpha); ("mbfscrf", 0x1d4ef, UAlpha); ("mbfscrg", 0x1d4f0, UAlpha);
   ("mbfscrh", 0x1d4f1, UAlpha); ("mbfscri", 0x1d4f2, UAlpha); ("mbfscrj", 0x1d4f3, UAlpha); ("mbfscrk", 0x1d4f4, UAlpha);
   ("mbfscrl", 0x1d4f5, UAlpha); ("mbfscrm", 0x1d4f6, UAlpha); ("mbfscrn", 0x1d4f7, UAlpha); ("mbfscro", 0x1d4f8, UAlpha);
   ("mbfscrp", 0x1d4f9, UAlpha); ("mbfscrq", 0x1d4fa, UAlpha); ("mbfscrr", 0x1d4fb, UAlpha); ("mbfscrs", 0x1d4fc, UAlpha);
   ("mbfscrt", 0x1d4fd, UAlpha); ("mbfscru", 0x1d4fe, UAlpha); ("mbfscrv", 0x1d4ff, UAlpha); ("mbfscrw", 0x1d500, UAlpha);
   ("mbfscrx", 0x1d501, UAlpha); ("mbfscry", 0x1d502, UAlpha); ("mbfscrz", 0x1d503, UAlpha); ("mfrakA", 0x1d504, UAlpha);
   ("mfrakB", 0x1d505, UAlpha); ("mfrakD", 0x1d507, UAlpha); ("mfrakE", 0x1d508, UAlpha); ("mfrakF", 0x1d509, UAlpha);
   ("mfrakG", 0x1d50a, UAlpha); ("mfrakJ", 0x1d50d, UAlpha); ("mfrakK", 0x1d50e, UAlpha); ("mfrakL", 0x1d50f, UAlpha);
   ("mfrakM", 0x1d510, UAlpha); ("mfrakN", 0x1d511, UAlpha); ("mfrakO", 0x1d512, UAlpha); ("mfrakP", 0x1d513, UAlpha);
   ("mfrakQ", 0x1d514, UAlpha); ("mfrakS", 0x1d516, UAlpha); ("mfrakT", 0x1d517, UAlpha); ("mfrakU", 0x1d518, UAlpha);
   ("mfrakV", 0x1d519, UAlpha); ("mfrakW", 0x1d51a, UAlpha); ("mfrakX", 0x1d51b, UAlpha); ("mfrakY", 0x1d51c, UAlpha);
   ("mfraka", 0x1d51e, UAlpha); ("mfrakb", 0x1d51f, UAlpha); ("mfrakc", 0x1d520, UAlpha); ("mfrakd", 0x1d521, UAlpha);
   ("mfrake", 0x1d522, UAlpha); ("mfrakf", 0x1d523, UAlpha); ("mfrakg", 0x1d524, UAlpha); ("mfrakh", 0x1d525, UAlpha);
   ("mfraki", 0x1d526, UAlpha); ("mfrakj", 0x1d527, UAlpha); ("mfrakk", 0x1d528, UAlpha); ("mfrakl", 0x1d529, UAlpha);
   ("mfrakm", 0x1d52a, UAlpha); ("mfrakn", 0x1d52b, UAlpha); ("mfrako", 0x1d52c, UAlpha); ("mfrakp", 0x1d52d, UAlpha);
   ("mfrakq", 0x1d52e, UAlpha); ("mfrakr", 0x1d52f, UAlpha); ("mfraks", 0x1d530, UAlpha); ("mfrakt", 0x1d531, UAlpha);
   ("mfraku", 0x1d532, UAlpha); ("mfrakv", 0x1d533, UAlpha); ("mfrakw", 0x1d534, UAlpha); ("mfrakx", 0x1d535, UAlpha);
   ("mfraky", 0x1d536, UAlpha); ("mfrakz", 0x1d537, UAlpha); ("BbbA", 0x1d538, UAlpha); ("BbbB", 0x1d539, UAlpha);
   ("BbbD", 0x1d53b, UAlpha); ("BbbE", 0x1d53c, UAlpha); ("BbbF", 0x1d53d, UAlpha); ("BbbG", 0x1d53e, UAlpha);
   ("BbbI", 0x1d540, UAlpha); ("BbbJ", 0x1d541, UAlpha); ("BbbK", 0x1d542, UAlpha); ("BbbL", 0x1d543, UAlpha);
   ("BbbM", 0x1d544, UAlpha); ("BbbO", 0x1d546, UAlpha); ("BbbS", 0x1d54a, UAlpha); ("BbbT", 0x1d54b, UAlpha);
   ("BbbU", 0x1d54c, UAlpha); ("BbbV", 0x1d54d, UAlpha); ("BbbW", 0x1d54e, UAlpha); ("BbbX", 0x1d54f, UAlpha);
   ("BbbY", 0x1d550, UAlpha); ("Bbba", 0x1d552, UAlpha); ("Bbbb", 0x1d553, UAlpha); ("Bbbc", 0x1d554, UAlpha);
   ("Bbbd", 0x1d555, UAlpha); ("Bbbe", 0x1d556, UAlpha); ("Bbbf", 0x1d557, UAlpha); ("Bbbg", 0x1d558, UAlpha);
   ("Bbbh", 0x1d559, UAlpha); ("Bbbi", 0x1d55a, UAlpha); ("Bbbj", 0x1d55b, UAlpha); ("Bbbk", 0x1d55c, UAlpha);
   ("Bbbl", 0x1d55d, UAlpha); ("Bbbm", 0x1d55e, UAlpha); ("Bbbn", 0x1d55f, UAlpha); ("Bbbo", 0x1d560, UAlpha);
   ("Bbbp", 0x1d561, UAlpha); ("Bbbq", 0x1d562, UAlpha); ("Bbbr", 0x1d563, UAlpha); ("Bbbs", 0x1d564, UAlpha);
   ("Bbbt", 0x1d565, UAlpha); ("Bbbu", 0x1d566, UAlpha); ("Bbbv", 0x1d567, UAlpha); ("Bbbw", 0x1d568, UAlpha);
   ("Bbbx", 0x1d569, UAlpha); ("Bbby", 0x1d56a, UAlpha); ("Bbbz", 0x1d56b, UAlpha); ("mbffrakA", 0x1d56c, UAlpha);
   ("mbffrakB", 0x1d56d, UAlpha); ("mbffrakC", 0x1d56e, UAlpha); ("mbffrakD", 0x1d56f, UAlpha); ("mbffrakE", 0x1d570, UAlpha);
   ("mbffrakF", 0x1d571, UAlpha); ("mbffrakG", 0x1d572, UAlpha); ("mbffrakH", 0x1d573, UAlpha); ("mbffrakI", 0x1d574, UAlpha);
   ("mbffrakJ", 0x1d575, UAlpha); ("mbffrakK", 0x1d576, UAlpha); ("mbffrakL", 0x1d577, UAlpha); ("mbffrakM", 0x1d578, UAlpha);
   ("mbffrakN", 0x1d579, UAlpha); ("mbffrakO", 0x1d57a, UAlpha); ("mbffrakP", 0x1d57b, UAlpha); ("mbffrakQ", 0x1d57c, UAlpha);
   ("mbffrakR", 0x1d57d, UAlpha); ("mbffrakS", 0x1d57e, UAlpha); ("mbffrakT", 0x1d57f, UAlpha); ("mbffrakU", 0x1d580, UAlpha);
   ("mbffrakV", 0x1d581, UAlpha); ("mbffrakW", 0x1d582, UAlpha); ("mbffrakX", 0x1d583, UAlpha); ("mbffrakY", 0x1d584, UAlpha);
   ("mbffrakZ", 0x1d585, UAlpha); ("mbffraka", 0x1d586, UAlpha); ("mbffrakb", 0x1d587, UAlpha); ("mbffrakc", 0x1d588, UAlpha);
   ("mbffrakd", 0x1d589, UAlpha); ("mbffrake", 0x1d58a, UAlpha); ("mbffrakf", 0x1d58b, UAlpha); ("mbffrakg", 0x1d58c, UAlpha);
   ("mbffrakh", 0x1d58d, UAlpha); ("mbffraki", 0x1d58e, UAlpha); ("mbffrakj", 0x1d58f, UAlpha); ("mbffrakk", 0x1d590, UAlpha);
   ("mbffrakl", 0x1d591, UAlpha); ("mbffrakm", 0x1d592, UAlpha); ("mbffrakn", 0x1d593, UAlpha); ("mbffrako", 0x1d594, UAlpha);
   ("mbffrakp", 0x1d595, UAlpha); ("mbffrakq", 0x1d596, UAlpha); ("mbffrakr", 0x1d597, UAlpha); ("mbffraks", 0x1d598, UAlpha);
   ("mbffrakt", 0x1d599, UAlpha); ("mbffraku", 0x1d59a, UAlpha); ("mbffrakv", 0x1d59b, UAlpha); ("mbffrakw", 0x1d59c, UAlpha);
   ("mbffrakx", 0x1d59d, UAlpha); ("mbffraky", 0x1d59e, UAlpha); ("mbffrakz", 0x1d59f, UAlpha); ("msansA", 0x1d5a0, UAlpha);
   ("msansB", 0x1d5a1, UAlpha); ("msansC", 0x1d5a2, UAlpha); ("msansD", 0x1d5a3, UAlpha); ("msansE", 0x1d5a4, UAlpha);
   ("msansF", 0x1d5a5, UAlpha); ("msansG", 0x1d5a6, UAlpha); ("msansH", 0x1d5a7, UAlpha); ("msansI", 0x1d5a8, UAlpha);
   ("msansJ", 0x1d5a9, UAlpha); ("msansK", 0x1d5aa, UAlpha); ("msansL", 0x1d5ab, UAlpha); ("msansM", 0x1d5ac, UAlpha);
   ("msansN", 0x1d5ad, UAlpha); ("msansO", 0x1d5ae, UAlpha); ("msansP", 0x1d5af, UAlpha); ("msansQ", 0x1d5b0, UAlpha);
   ("msansR", 0x1d5b1, UAlpha); ("msansS", 0x1d5b2, UAlpha); ("msansT", 0x1d5b3, UAlpha); ("msansU", 0x1d5b4, UAlpha);
   ("msansV", 0x1d5b5, UAlpha); ("msansW", 0x1d5b6, UAlpha); ("msansX", 0x1d5b7, UAlpha); ("msansY", 0x1d5b8, UAlpha);
   ("msansZ", 0x1d5b9, UAlpha); ("msansa", 0x1d5ba, UAlpha); ("msansb", 0x1d5bb, UAlpha); ("msansc", 0x1d5bc, UAlpha);
   ("msansd", 0x1d5bd, UAlpha); ("msanse", 0x1d5be, UAlpha); ("msansf", 0x1d5bf, UAlpha); ("msansg", 0x1d5c0, UAlpha);
   ("msansh", 0x1d5c1, UAlpha); ("msansi", 0x1d5c2, UAlpha); ("msansj", 0x1d5c3, UAlpha); ("msansk", 0x1d5c4, UAlpha);
   ("msansl", 0x1d5c5, UAlpha); ("msansm", 0x1d5c6, UAlpha); ("msansn", 0x1d5c7, UAlpha); ("msanso", 0x1d5c8, UAlpha);
   ("msansp", 0x1d5c9, UAlpha); ("msansq", 0x1d5ca, UAlpha); ("msansr", 0x1d5cb, UAlpha); ("msanss", 0x1d5cc, UAlpha);
   ("msanst", 0x1d5cd, UAlpha); ("msansu", 0x1d5ce, UAlpha); ("msansv", 0x1d5cf, UAlpha); ("msansw", 0x1d5d0, UAlpha);
   ("msansx", 0x1d5d1, UAlpha); ("msansy", 0x1d5d2, UAlpha); ("msansz", 0x1d5d3, UAlpha); ("mbfsansA", 0x1d5d4, UAlpha);
   ("mbfsansB", 0x1d5d5, UAlpha); ("mbfsansC", 0x1d5d6, UAlpha); ("mbfsansD", 0x1d5d7, UAlpha); ("mbfsansE", 0x1d5d8, UAlpha);
   ("mbfsansF", 0x1d5d9, UAlpha); ("mbfsansG", 0x1d5da, UAlpha); ("mbfsansH", 0x1d5db, UAlpha); ("mbfsansI", 0x1d5dc, UAlpha);
   ("mbfsansJ", 0x1d5dd, UAlpha); ("mbfsansK", 0x1d5de, UAlpha); ("mbfsansL", 0x1d5df, UAlpha); ("mbfsansM", 0x1d5e0, UAlpha);
   ("mbfsansN", 0x1d5e1, UAlpha); ("mbfsansO", 0x1d5e2, UAlpha); ("mbfsansP", 0x1d5e3, UAlpha); ("mbfsansQ", 0x1d5e4, UAlpha);
   ("mbfsansR", 0x1d5e5, UAlpha); ("mbfsansS", 0x1d5e6, UAlpha); ("mbfsansT", 0x1d5e7, UAlpha); ("mbfsansU", 0x1d5e8, UAlpha);
   ("mbfsansV", 0x1d5e9, UAlpha); ("mbfsansW", 0x1d5ea, UAlpha); ("mbfsansX", 0x1d5eb, UAlpha); ("mbfsansY", 0x1d5ec, UAlpha);
   ("mbfsansZ", 0x1d5ed, UAlpha); ("mbfsansa", 0x1d5ee, UAlpha); ("mbfsansb", 0x1d5ef, UAlpha); ("mbfsansc", 0x1d5f0, UAlpha);
   ("mbfsansd", 0x1d5f1, UAlpha); ("mbfsanse", 0x1d5f2, UAlpha); ("mbfsansf", 0x1d5f3, UAlpha); ("mbfsansg", 0x1d5f4, UAlpha);
   ("mbfsansh", 0x1d5f5, UAlpha); ("mbfsansi", 0x1d5f6, UAlpha); ("mbfsansj", 0x1d5f7, UAlpha); ("mbfsansk", 0x1d5f8, UAlpha);
   ("mbfsansl", 0x1d5f9, UAlpha); ("mbfsansm", 0x1d5fa, UAlpha); ("mbfsansn", 0x1d5fb, UAlpha); ("mbfsanso", 0x1d5fc, UAlpha);
   ("mbfsansp", 0x1d5fd, UAlpha); ("mbfsansq", 0x1d5fe, UAlpha); ("mbfsansr", 0x1d5ff, UAlpha); ("mbfsanss", 0x1d600, UAlpha);
   ("mbfsanst", 0x1d601, UAlpha); ("mbfsansu", 0x1d602, UAlpha); ("mbfsansv", 0x1d603, UAlpha); ("mbfsansw", 0x1d604, UAlpha);
   ("mbfsansx", 0x1d605, UAlpha); ("mbfsansy", 0x1d606, UAlpha); ("mbfsansz", 0x1d607, UAlpha); ("mitsansA", 0x1d608, UAlpha);
   ("mitsansB", 0x1d609, UAlpha); ("mitsansC", 0x1d60a, UAlpha); ("mitsansD", 0x1d60b, UAlpha); ("mitsansE", 0x1d60c, UAlpha);
   ("mitsansF", 0x1d60d, UAlpha); ("mitsansG", 0x1d60e, UAlpha); ("mitsansH", 0x1d60f, UAlpha); ("mitsansI", 0x1d610, UAlpha);
   ("mitsansJ", 0x1d611, UAlpha); ("mitsansK", 0x1d612, UAlpha); ("mitsansL", 0x1d613, UAlpha); ("mitsansM", 0x1d614, UAlpha);
   ("mitsansN", 0x1d615, UAlpha); ("mitsansO", 0x1d616, UAlpha); ("mitsansP", 0x1d617, UAlpha); ("mitsansQ", 0x1d618, UAlpha);
   ("mitsansR", 0x1d619, UAlpha); ("mitsansS", 0x1d61a, UAlpha); ("mitsansT", 0x1d61b, UAlpha); ("mitsansU", 0x1d61c, UAlpha);
   ("mitsansV", 0x1d61d, UAlpha); ("mitsansW", 0x1d61e, UAlpha); ("mitsansX", 0x1d61f, UAlpha); ("mitsansY", 0x1d620, UAlpha);
   ("mitsansZ", 0x1d621, UAlpha); ("mitsansa", 0x1d622, UAlpha); ("mitsansb", 0x1d623, UAlpha); ("mitsansc", 0x1d624, UAlpha);
   ("mitsansd", 0x1d625, UAlpha); ("mitsanse", 0x1d626, UAlpha); ("mitsansf", 0x1d627, UAlpha); ("mitsansg", 0x1d628, UAlpha);
   ("mitsansh", 0x1d629, UAlpha); ("mitsansi", 0x1d62a, UAlpha); ("mitsansj", 0x1d62b, UAlpha); ("mitsansk", 0x1d62c, UAlpha);
   ("mitsansl", 0x1d62d, UAlpha); ("mitsansm", 0x1d62e, UAlpha); ("mitsansn", 0x1d62f, UAlpha); ("mitsanso", 0x1d630, UAlpha);
   ("mitsansp", 0x1d631, UAlpha); ("mitsansq", 0x1d632, UAlpha); ("mitsansr", 0x1d633, UAlpha); ("mitsanss", 0x1d634, UAlpha);
   ("mitsanst", 0x1d635, UAlpha); ("mitsansu", 0x1d636, UAlpha); ("mitsansv", 0x1d637, UAlpha); ("mitsansw", 0x1d638, UAlpha);
   ("mitsansx", 0x1d639, UAlpha); ("mitsansy", 0x1d63a, UAlpha); ("mitsansz", 0x1d63b, UAlpha); ("mbfitsansA", 0x1d63c, UAlpha);
   ("mbfitsansB", 0x1d63d, UAlpha); ("mbfitsansC", 0x1d63e, UAlpha); ("mbfitsansD", 0x1d63f, UAlpha);
   ("mbfitsansE", 0x1d640, UAlpha); ("mbfitsansF", 0x1d641, UAlpha); ("mbfitsansG", 0x1d642, UAlpha);
   ("mbfitsansH", 0x1d643, UAlpha); ("mbfitsansI", 0x1d644, UAlpha); ("mbfitsansJ", 0x1d645, UAlpha);
   ("mbfitsansK", 0x1d646, UAlpha); ("mbfitsansL", 0x1d647, UAlpha); ("mbfitsansM", 0x1d648, UAlpha);
   ("mbfitsansN", 0x1d649, UAlpha); ("mbfitsansO", 0x1d64a, UAlpha); ("mbfitsansP", 0x1d64b, UAlpha);
   ("mbfitsansQ", 0x1d64c, UAlpha); ("mbfitsansR", 0x1d64d, UAlpha); ("mbfitsansS", 0x1d64e, UAlpha);
   ("mbfitsansT", 0x1d64f, UAlpha); ("mbfitsansU", 0x1d650, UAlpha); ("mbfitsansV", 0x1d651, UAlpha);
   ("mbfitsansW", 0x1d652, UAlpha); ("mbfitsansX", 0x1d653, UAlpha); ("mbfitsansY", 0x1d654, UAlpha);
   ("mbfitsansZ", 0x1d655, UAlpha); ("mbfitsansa", 0x1d656, UAlpha); ("mbfitsansb", 0x1d657, UAlpha);
   ("mbfitsansc", 0x1d658, UAlpha); ("mbfitsansd", 0x1d659, UAlpha); ("mbfitsanse", 0x1d65a, UAlpha);
   ("mbfitsansf", 0x1d65b, UAlpha); ("mbfitsansg", 0x1d65c, UAlpha); ("mbfitsansh", 0x1d65d, UAlpha);
   ("mbfitsansi", 0x1d65e, UAlpha); ("mbfitsansj", 0x1d65f, UAlpha); ("mbfitsansk", 0x1d660, UAlpha);
   ("mbfitsansl", 0x1d661, UAlpha); ("mbfitsansm", 0x1d662, UAlpha); ("mbfitsansn", 0x1d663, UAlpha);
   ("mbfitsanso", 0x1d664, UAlpha); ("mbfitsansp", 0x1d665, UAlpha); ("mbfitsansq", 0x1d666, UAlpha);
   ("mbfitsansr", 0x1d667, UAlpha); ("mbfitsanss", 0x1d668, UAlpha); ("mbfitsanst", 0x1d669, UAlpha);
   ("mbfitsansu", 0x1d66a, UAlpha); ("mbfitsansv", 0x1d66b, UAlpha); ("mbfitsansw", 0x1d66c, UAlpha);
   ("mbfitsansx", 0x1d66d, UAlpha); ("mbfitsansy", 0x1d66e, UAlpha); ("mbfitsansz", 0x1d66f, UAlpha); ("mttA", 0x1d670, UAlpha);
   ("mttB", 0x1d671, UAlpha); ("mttC", 0x1d672, UAlpha); ("mttD", 0x1d673, UAlpha); ("mttE", 0x1d674, UAlpha);
   ("mttF", 0x1d675, UAlpha); ("mttG", 0x1d676, UAlpha); ("mttH", 0x1d677, UAlpha); ("mttI", 0x1d678, UAlpha);
   ("mttJ", 0x1d679, UAlpha); ("mttK", 0x1d67a, UAlpha); ("mttL", 0x1d67b, UAlpha); ("mttM", 0x1d67c, UAlpha);
   ("mttN", 0x1d67d, UAlpha); ("mttO", 0x1d67e, UAlpha); ("mttP", 0x1d67f, UAlpha); ("mttQ", 0x1d680, UAlpha);
   ("mttR", 0x1d681, UAlpha); ("mttS", 0x1d682, UAlpha); ("mttT", 0x1d683, UAlpha); ("mttU", 0x1d684, UAlpha);
   ("mttV", 0x1d685, UAlpha); ("mttW", 0x1d686, UAlpha); ("mttX", 0x1d687, UAlpha); ("mttY", 0x1d688, UAlpha);
   ("mttZ", 0x1d689, UAlpha); ("mtta", 0x1d68a, UAlpha); ("mttb", 0x1d68b, UAlpha); ("mttc", 0x1d68c, UAlpha);
   ("mttd", 0x1d68d, UAlpha); ("mtte", 0x1d68e, UAlpha); ("mttf", 0x1d68f, UAlpha); ("mttg", 0x1d690, UAlpha);
   ("mtth", 0x1d691, UAlpha); ("mtti", 0x1d692, UAlpha); ("mttj", 0x1d693, UAlpha); ("mttk", 0x1d694, UAlpha);
   ("mttl", 0x1d695, UAlpha); ("mttm", 0x1d696, UAlpha); ("mttn", 0x1d697, UAlpha); ("mtto", 0x1d698, UAlpha);
   ("mttp", 0x1d699, UAlpha); ("mttq", 0x1d69a, UAlpha); ("mttr", 0x1d69b, UAlpha); ("mtts", 0x1d69c, UAlpha);
   ("mttt", 0x1d69d, UAlpha); ("mttu", 0x1d69e, UAlpha); ("mttv", 0x1d69f, UAlpha); ("mttw", 0x1d6a0, UAlpha);
   ("mttx", 0x1d6a1, UAlpha); ("mtty", 0x1d6a2, UAlpha); ("mttz", 0x1d6a3, UAlpha); ("imath", 0x1d6a4, UAlpha);
   ("jmath", 0x1d6a5, UAlpha); ("mbfAlpha", 0x1d6a8, UAlpha); ("mbfBeta", 0x1d6a9, UAlpha); ("mbfGamma", 0x1d6aa, UAlpha);
   ("mbfDelta", 0x1d6ab, UAlpha); ("mbfEpsilon", 0x1d6ac, UAlpha); ("mbfZeta", 0x1d6ad, UAlpha); ("mbfEta", 0x1d6ae, UAlpha);
   ("mbfTheta", 0x1d6af, UAlpha); ("mbfIota", 0x1d6b0, UAlpha); ("mbfKappa", 0x1d6b1, UAlpha); ("mbfLambda", 0x1d6b2, UAlpha);
   ("mbfMu", 0x1d6b3, UAlpha); ("mbfNu", 0x1d6b4, UAlpha); ("mbfXi", 0x1d6b5, UAlpha); ("mbfOmicron", 0x1d6b6, UAlpha);
   ("mbfPi", 0x1d6b7, UAlpha); ("mbfRho", 0x1d6b8, UAlpha); ("mbfvarTheta", 0x1d6b9, UAlpha); ("mbfSigma", 0x1d6ba, UAlpha);
   ("mbfTau", 0x1d6bb, UAlpha); ("mbfUpsilon", 0x1d6bc, UAlpha); ("mbfPhi", 0x1d6bd, UAlpha); ("mbfChi", 0x1d6be, UAlpha);
   ("mbfPsi", 0x1d6bf, UAlpha); ("mbfOmega", 0x1d6c0, UAlpha); ("mbfnabla", 0x1d6c1, UAlpha); ("mbfalpha", 0x1d6c2, UAlpha);
   ("mbfbeta", 0x1d6c3, UAlpha); ("mbfgamma", 0x1d6c4, UAlpha); ("mbfdelta", 0x1d6c5, UAlpha); ("mbfvarepsilon", 0x1d6c6, UAlpha);
   ("mbfzeta", 0x1d6c7, UAlpha); ("mbfeta", 0x1d6c8, UAlpha); ("mbftheta", 0x1d6c9, UAlpha); ("mbfiota", 0x1d6ca, UAlpha);
   ("mbfkappa", 0x1d6cb, UAlpha); ("mbflambda", 0x1d6cc, UAlpha); ("mbfmu", 0x1d6cd, UAlpha); ("mbfnu", 0x1d6ce, UAlpha);
   ("mbfxi", 0x1d6cf, UAlpha); ("mbfomicron", 0x1d6d0, UAlpha); ("mbfpi", 0x1d6d1, UAlpha); ("mbfrho", 0x1d6d2, UAlpha);
   ("mbfvarsigma", 0x1d6d3, UAlpha); ("mbfsigma", 0x1d6d4, UAlpha); ("mbftau", 0x1d6d5, UAlpha); ("mbfupsilon", 0x1d6d6, UAlpha);
   ("mbfvarphi", 0x1d6d7, UAlpha); ("mbfchi", 0x1d6d8, UAlpha); ("mbfpsi", 0x1d6d9, UAlpha); ("mbfomega", 0x1d6da, UAlpha);
   ("mbfpartial", 0x1d6db, UAlpha); ("mbfepsilon", 0x1d6dc, UAlpha); ("mbfvartheta", 0x1d6dd, UAlpha);
   ("mbfvarkappa", 0x1d6de, UAlpha); ("mbfphi", 0x1d6df, UAlpha); ("mbfvarrho", 0x1d6e0, UAlpha); ("mbfvarpi", 0x1d6e1, UAlpha);
   ("mitAlpha", 0x1d6e2, UAlpha); ("mitBeta", 0x1d6e3, UAlpha); ("mitGamma", 0x1d6e4, UAlpha); ("mitDelta", 0x1d6e5, UAlpha);
   ("mitEpsilon", 0x1d6e6, UAlpha); ("mitZeta", 0x1d6e7, UAlpha); ("mitEta", 0x1d6e8, UAlpha); ("mitTheta", 0x1d6e9, UAlpha);
   ("mitIota", 0x1d6ea, UAlpha); ("mitKappa", 0x1d6eb, UAlpha); ("mitLambda", 0x1d6ec, UAlpha); ("mitMu", 0x1d6ed, UAlpha);
   ("mitNu", 0x1d6ee, UAlpha); ("mitXi", 0x1d6ef, UAlpha); ("mitOmicron", 0x1d6f0, UAlpha); ("mitPi", 0x1d6f1, UAlpha);
   ("mitRho", 0x1d6f2, UAlpha); ("mitvarTheta", 0x1d6f3, UAlpha); ("mitSigma", 0x1d6f4, UAlpha); ("mitTau", 0x1d6f5, UAlpha);
   ("mitUpsilon", 0x1d6f6, UAlpha); ("mitPhi", 0x1d6f7, UAlpha); ("mitChi", 0x1d6f8, UAlpha); ("mitPsi", 0x1d6f9, UAlpha);
   ("mitOmega", 0x1d6fa, UAlpha); ("mitnabla", 0x1d6fb, UAlpha); ("mitalpha", 0x1d6fc, UAlpha); ("mitbeta", 0x1d6fd, UAlpha);
   ("mitgamma", 0x1d6fe, UAlpha); ("mitdelta", 0x1d6ff, UAlpha); ("mitvarepsilon", 0x1d700, UAlpha); ("mitzeta", 0x1d701, UAlpha);
   ("miteta", 0x1d702, UAlpha); ("mittheta", 0x1d703, UAlpha); ("mitiota", 0x1d704, UAlpha); ("mitkappa", 0x1d705, UAlpha);
   ("mitlambda", 0x1d706, UAlpha); ("mitmu", 0x1d707, UAlpha); ("mitnu", 0x1d708, UAlpha); ("mitxi", 0x1d709, UAlpha);
   ("mitomicron", 0x1d70a, UAlpha); ("mitpi", 0x1d70b, UAlpha); ("mitrho", 0x1d70c, UAlpha); ("mitvarsigma", 0x1d70d, UAlpha);
   ("mitsigma", 0x1d70e, UAlpha); ("mittau", 0x1d70f, UAlpha); ("mitupsilon", 0x1d710, UAlpha); ("mitvarphi", 0x1d711, UAlpha);
   ("mitchi", 0x1d712, UAlpha); ("mitpsi", 0x1d713, UAlpha); ("mitomega", 0x1d714, UAlpha); ("mitpartial", 0x1d715, UAlpha);
   ("mitepsilon", 0x1d716, UAlpha); ("mitvartheta", 0x1d717, UAlpha); ("mitvarkappa", 0x1d718, UAlpha);
   ("mitphi", 0x1d719, UAlpha); ("mitvarrho", 0x1d71a, UAlpha); ("mitvarpi", 0x1d71b, UAlpha); ("mbfitAlpha", 0x1d71c, UAlpha);
   ("mbfitBeta", 0x1d71d, UAlpha); ("mbfitGamma", 0x1d71e, UAlpha); ("mbfitDelta", 0x1d71f, UAlpha);
   ("mbfitEpsilon", 0x1d720, UAlpha); ("mbfitZeta", 0x1d721, UAlpha); ("mbfitEta", 0x1d722, UAlpha);
   ("mbfitTheta", 0x1d723, UAlpha); ("mbfitIota", 0x1d724, UAlpha); ("mbfitKappa", 0x1d725, UAlpha);
   ("mbfitLambda", 0x1d726, UAlpha); ("mbfitMu", 0x1d727, UAlpha); ("mbfitNu", 0x1d728, UAlpha); ("mbfitXi", 0x1d729, UAlpha);
   ("mbfitOmicron", 0x1d72a, UAlpha); ("mbfitPi", 0x1d72b, UAlpha); ("mbfitRho", 0x1d72c, UAlpha);
   ("mbfitvarTheta", 0x1d72d, UAlpha); ("mbfitSigma", 0x1d72e, UAlpha); ("mbfitTau", 0x1d72f, UAlpha);
   ("mbfitUpsilon", 0x1d730, UAlpha); ("mbfitPhi", 0x1d731, UAlpha); ("mbfitChi", 0x1d732, UAlpha); ("mbfitPsi", 0x1d733, UAlpha);
   ("mbfitOmega", 0x1d734, UAlpha); ("mbfitnabla", 0x1d735, UAlpha); ("mbfitalpha", 0x1d736, UAlpha);
   ("mbfitbeta", 0x1d737, UAlpha); ("mbfitgamma", 0x1d738, UAlpha); ("mbfitdelta", 0x1d739, UAlpha);
   ("mbfitvarepsilon", 0x1d73a, UAlpha); ("mbfitzeta", 0x1d73b, UAlpha); ("mbfiteta", 0x1d73c, UAlpha);
   ("mbfittheta", 0x1d73d, UAlpha); ("mbfitiota", 0x1d73e, UAlpha); ("mbfitkappa", 0x1d73f, UAlpha);
   ("mbfitlambda", 0x1d740, UAlpha); ("mbfitmu", 0x1d741, UAlpha); ("mbfitnu", 0x1d742, UAlpha); ("mbfitxi", 0x1d743, UAlpha);
   ("mbfitomicron", 0x1d744, UAlpha); ("mbfitpi", 0x1d745, UAlpha); ("mbfitrho", 0x1d746, UAlpha);
   ("mbfitvarsigma", 0x1d747, UAlpha); ("mbfitsigma", 0x1d748, UAlpha); ("mbfittau", 0x1d749, UAlpha);
   ("mbfitupsilon", 0x1d74a, UAlpha); ("mbfitvarphi", 0x1d74b, UAlpha); ("mbfitchi", 0x1d74c, UAlpha);
   ("mbfitpsi", 0x1d74d, UAlpha); ("mbfitomega", 0x1d74e, UAlpha); ("mbfitpartial", 0x1d74f, UAlpha);
   ("mbfitepsilon", 0x1d750, UAlpha); ("mbfitvartheta", 0x1d751, UAlpha); ("mbfitvarkappa", 0x1d752, UAlpha);
   ("mbfitphi", 0x1d753, UAlpha); ("mbfitvarrho", 0x1d754, UAlpha); ("mbfitvarpi", 0x1d755, UAlpha);
   ("mbfsansAlpha", 0x1d756, UAlpha); ("mbfsansBeta", 0x1d757, UAlpha); ("mbfsansGamma", 0x1d758, UAlpha);
   ("mbfsansDelta", 0x1d759, UAlpha); ("mbfsansEpsilon", 0x1d75a, UAlpha); ("mbfsansZeta", 0x1d75b, UAlpha);
   ("mbfsansEta", 0x1d75c, UAlpha); ("mbfsansTheta", 0x1d75d, UAlpha); ("mbfsansIota", 0x1d75e, UAlpha);
   ("mbfsansKappa", 0x1d75f, UAlpha); ("mbfsansLambda", 0x1d760, UAlpha); ("mbfsansMu", 0x1d761, UAlpha);
   ("mbfsansNu", 0x1d762, UAlpha); ("mbfsansXi", 0x1d763, UAlpha); ("mbfsansOmicron", 0x1d764, UAlpha);
   ("mbfsansPi", 0x1d765, UAlpha); ("mbfsansRho", 0x1d766, UAlpha); ("mbfsansvarTheta", 0x1d767, UAlpha);
   ("mbfsansSigma", 0x1d768, UAlpha); ("mbfsansTau", 0x1d769, UAlpha); ("mbfsansUpsilon", 0x1d76a, UAlpha);
   ("mbfsansPhi", 0x1d76b, UAlpha); ("mbfsansChi", 0x1d76c, UAlpha); ("mbfsansPsi", 0x1d76d, UAlpha);
   ("mbfsansOmega", 0x1d76e, UAlpha); ("mbfsansnabla", 0x1d76f, UAlpha); ("mbfsansalpha", 0x1d770, UAlpha);
   ("mbfsansbeta", 0x1d771, UAlpha); ("mbfsansgamma", 0x1d772, UAlpha); ("mbfsansdelta", 0x1d773, UAlpha);
   ("mbfsansvarepsilon", 0x1d774, UAlpha); ("mbfsanszeta", 0x1d775, UAlpha); ("mbfsanseta", 0x1d776, UAlpha);
   ("mbfsanstheta", 0x1d777, UAlpha); ("mbfsansiota", 0x1d778, UAlpha); ("mbfsanskappa", 0x1d779, UAlpha);
   ("mbfsanslambda", 0x1d77a, UAlpha); ("mbfsansmu", 0x1d77b, UAlpha); ("mbfsansnu", 0x1d77c, UAlpha);
   ("mbfsansxi", 0x1d77d, UAlpha); ("mbfsansomicron", 0x1d77e, UAlpha); ("mbfsanspi", 0x1d77f, UAlpha);
   ("mbfsansrho", 0x1d780, UAlpha); ("mbfsansvarsigma", 0x1d781, UAlpha); ("mbfsanssigma", 0x1d782, UAlpha);
   ("mbfsanstau", 0x1d783, UAlpha); ("mbfsansupsilon", 0x1d784, UAlpha); ("mbfsansvarphi", 0x1d785, UAlpha);
   ("mbfsanschi", 0x1d786, UAlpha); ("mbfsanspsi", 0x1d787, UAlpha); ("mbfsansomega", 0x1d788, UAlpha);
   ("mbfsanspartial", 0x1d789, UAlpha); ("mbfsansepsilon", 0x1d78a, UAlpha); ("mbfsansvartheta", 0x1d78b, UAlpha);
   ("mbfsansvarkappa", 0x1d78c, UAlpha); ("mbfsansphi", 0x1d78d, UAlpha); ("mbfsansvarrho", 0x1d78e, UAlpha);
   ("mbfsansvarpi", 0x1d78f, UAlpha); ("mbfitsansAlpha", 0x1d790, UAlpha); ("mbfitsansBeta", 0x1d791, UAlpha);
   ("mbfitsansGamma", 0x1d792, UAlpha); ("mbfitsansDelta", 0x1d793, UAlpha); ("mbfitsansEpsilon", 0x1d794, UAlpha);
   ("mbfitsansZeta", 0x1d795, UAlpha); ("mbfitsansEta", 0x1d796, UAlpha); ("mbfitsansTheta", 0x1d797, UAlpha);
   ("mbfitsansIota", 0x1d798, UAlpha); ("mbfitsansKappa", 0x1d799, UAlpha); ("mbfitsansLambda", 0x1d79a, UAlpha);
   ("mbfitsansMu", 0x1d79b, UAlpha); ("mbfitsansNu", 0x1d79c, UAlpha); ("mbfitsansXi", 0x1d79d, UAlpha);
   ("mbfitsansOmicron", 0x1d79e, UAlpha); ("mbfitsansPi", 0x1d79f, UAlpha); ("mbfitsansRho", 0x1d7a0, UAlpha);
   ("mbfitsansvarTheta", 0x1d7a1, UAlpha); ("mbfitsansSigma", 0x1d7a2, UAlpha); ("mbfitsansTau", 0x1d7a3, UAlpha);
   ("mbfitsansUpsilon", 0x1d7a4, UAlpha); ("mbfitsansPhi", 0x1d7a5, UAlpha); ("mbfitsansChi", 0x1d7a6, UAlpha);
   ("mbfitsansPsi", 0x1d7a7, UAlpha); ("mbfitsansOmega", 0x1d7a8, UAlpha); ("mbfitsansnabla", 0x1d7a9, UAlpha);
   ("mbfitsansalpha", 0x1d7aa, UAlpha); ("mbfitsansbeta", 0x1d7ab, UAlpha); ("mbfitsansgamma", 0x1d7ac, UAlpha);
   ("mbfitsansdelta", 0x1d7ad, UAlpha); ("mbfitsansvarepsilon", 0x1d7ae, UAlpha); ("mbfitsanszeta", 0x1d7af, UAlpha);
   ("mbfitsanseta", 0x1d7b0, UAlpha); ("mbfitsanstheta", 0x1d7b1, UAlpha); ("mbfitsansiota", 0x1d7b2, UAlpha);
   ("mbfitsanskappa", 0x1d7b3, UAlpha); ("mbfitsanslambda", 0x1d7b4, UAlpha); ("mbfitsansmu", 0x1d7b5, UAlpha);
   ("mbfitsansnu", 0x1d7b6, UAlpha); ("mbfitsansxi", 0x1d7b7, UAlpha); ("mbfitsansomicron", 0x1d7b8, UAlpha);
   ("mbfitsanspi", 0x1d7b9, UAlpha); ("mbfitsansrho", 0x1d7ba, UAlpha); ("mbfitsansvarsigma", 0x1d7bb, UAlpha);
   ("mbfitsanssigma", 0x1d7bc, UAlpha); ("mbfitsanstau", 0x1d7bd, UAlpha); ("mbfitsansupsilon", 0x1d7be, UAlpha);
   ("mbfitsansvarphi", 0x1d7bf, UAlpha); ("mbfitsanschi", 0x1d7c0, UAlpha); ("mbfitsanspsi", 0x1d7c1, UAlpha);
   ("mbfitsansomega", 0x1d7c2, UAlpha); ("mbfitsanspartial", 0x1d7c3, UAlpha); ("mbfitsansepsilon", 0x1d7c4, UAlpha);
   ("mbfitsansvartheta", 0x1d7c5, UAlpha); ("mbfitsansvarkappa", 0x1d7c6, UAlpha); ("mbfitsansphi", 0x1d7c7, UAlpha);
   ("mbfitsansvarrho", 0x1d7c8, UAlpha); ("mbfitsansvarpi", 0x1d7c9, UAlpha); ("mbfDigamma", 0x1d7ca, UAlpha);
   ("mbfdigamma", 0x1d7cb, UAlpha); ("mbfzero", 0x1d7ce, UOrd); ("mbfone", 0x1d7cf, UOrd); ("mbftwo", 0x1d7d0, UOrd);
   ("mbfthree", 0x1d7d1, UOrd); ("mbffour", 0x1d7d2, UOrd); ("mbffive", 0x1d7d3, UOrd); ("mbfsix", 0x1d7d4, UOrd);
   ("mbfseven", 0x1d7d5, UOrd); ("mbfeight", 0x1d7d6, UOrd); ("mbfnine", 0x1d7d7, UOrd); ("Bbbzero", 0x1d7d8, UOrd);
   ("Bbbone", 0x1d7d9, UOrd); ("Bbbtwo", 0x1d7da, UOrd); ("Bbbthree", 0x1d7db, UOrd); ("Bbbfour", 0x1d7dc, UOrd);
   ("Bbbfive", 0x1d7dd, UOrd); ("Bbbsix", 0x1d7de, UOrd); ("Bbbseven", 0x1d7df, UOrd); ("Bbbeight", 0x1d7e0, UOrd);
   ("Bbbnine", 0x1d7e1, UOrd); ("msanszero", 0x1d7e2, UOrd); ("msansone", 0x1d7e3, UOrd); ("msanstwo", 0x1d7e4, UOrd);
   ("msansthree", 0x1d7e5, UOrd); ("msansfour", 0x1d7e6, UOrd); ("msansfive", 0x1d7e7, UOrd); ("msanssix", 0x1d7e8, UOrd);
   ("msansseven", 0x1d7e9, UOrd); ("msanseight", 0x1d7ea, UOrd); ("msansnine", 0x1d7eb, UOrd); ("mbfsanszero", 0x1d7ec, UOrd);
   ("mbfsansone", 0x1d7ed, UOrd); ("mbfsanstwo", 0x1d7ee, UOrd); ("mbfsansthree", 0x1d7ef, UOrd); ("mbfsansfour", 0x1d7f0, UOrd);
   ("mbfsansfive", 0x1d7f1, UOrd); ("mbfsanssix", 0x1d7f2, UOrd); ("mbfsansseven", 0x1d7f3, UOrd); ("mbfsanseight", 0x1d7f4, UOrd);
   ("mbfsansnine", 0x1d7f5, UOrd); ("mttzero", 0x1d7f6, UOrd); ("mttone", 0x1d7f7, UOrd); ("mtttwo", 0x1d7f8, UOrd);
   ("mttthree", 0x1d7f9, UOrd); ("mttfour", 0x1d7fa, UOrd); ("mttfive", 0x1d7fb, UOrd); ("mttsix", 0x1d7fc, UOrd);
   ("mttseven", 0x1d7fd, UOrd); ("mtteight", 0x1d7fe, UOrd); ("mttnine", 0x1d7ff, UOrd); ("arabicmaj", 0x1eef0, UOp);
   ("arabichad", 0x1eef1, UOp)]%string.
(** The symbols of LaTeX (fontmath.ltx) and of the packages amsmath and amssymb, as far as the code has them, with their
    classes; the characters are those that look like them. *)
Definition latex : list (str * (N * atom)) := names [
   ("amalg", 0x2a3f, ABin); ("ast", 0x2217, ABin); ("bigcirc", 0x25ef, ABin); ("bigtriangledown", 0x25bd, ABin);
   ("bigtriangleup", 0x25b3, ABin); ("bullet", 0x2219, ABin); ("cap", 0x2229, ABin); ("cdot", 0x22c5, ABin);
   ("circ", 0x2218, ABin); ("cup", 0x222a, ABin); ("dagger", 0x2020, ABin); ("ddagger", 0x2021, ABin); ("dag", 0x2020, ABin);
   ("ddag", 0x2021, ABin); ("diamond", 0x22c4, ABin); ("div", 0xf7, ABin); ("mp", 0x2213, ABin); ("odot", 0x2299, ABin);
   ("ominus", 0x2296, ABin); ("oplus", 0x2295, ABin); ("oslash", 0x2298, ABin); ("otimes", 0x2297, ABin); ("pm", 0xb1, ABin);
   ("setminus", 0x2216, ABin); ("sqcap", 0x2293, ABin); ("sqcup", 0x2294, ABin); ("star", 0x22c6, ABin); ("times", 0xd7, ABin);
   ("triangleleft", 0x25c1, ABin); ("triangleright", 0x25b7, ABin); ("uplus", 0x228e, ABin); ("vee", 0x2228, ABin);
   ("lor", 0x2228, ABin); ("wedge", 0x2227, ABin); ("land", 0x2227, ABin); ("wr", 0x2240, ABin); ("dotplus", 0x2214, ABin);
   ("Cap", 0x22d2, ABin); ("doublecap", 0x22d2, ABin); ("Cup", 0x22d3, ABin); ("doublecup", 0x22d3, ABin);
   ("barwedge", 0x22bc, ABin); ("veebar", 0x22bb, ABin); ("doublebarwedge", 0x2a5e, ABin); ("boxminus", 0x229f, ABin);
   ("boxtimes", 0x22a0, ABin); ("boxdot", 0x22a1, ABin); ("boxplus", 0x229e, ABin); ("divideontimes", 0x22c7, ABin);
   ("ltimes", 0x22c9, ABin); ("rtimes", 0x22ca, ABin); ("leftthreetimes", 0x22cb, ABin); ("rightthreetimes", 0x22cc, ABin);
   ("curlywedge", 0x22cf, ABin); ("curlyvee", 0x22ce, ABin); ("circleddash", 0x229d, ABin); ("circledast", 0x229b, ABin);
   ("circledcirc", 0x229a, ABin); ("intercal", 0x22ba, ABin); ("lhd", 0x22b2, ABin); ("unlhd", 0x22b4, ABin);
   ("rhd", 0x22b3, ABin); ("unrhd", 0x22b5, ABin); ("leq", 0x2264, ARel); ("le", 0x2264, ARel); ("geq", 0x2265, ARel);
   ("ge", 0x2265, ARel); ("equiv", 0x2261, ARel); ("prec", 0x227a, ARel); ("succ", 0x227b, ARel); ("sim", 0x223c, ARel);
   ("perp", 0x27c2, ARel); ("preceq", 0x2aaf, ARel); ("succeq", 0x2ab0, ARel); ("simeq", 0x2243, ARel); ("mid", 0x2223, ARel);
   ("ll", 0x226a, ARel); ("gg", 0x226b, ARel); ("asymp", 0x224d, ARel); ("parallel", 0x2225, ARel); ("subset", 0x2282, ARel);
   ("supset", 0x2283, ARel); ("approx", 0x2248, ARel); ("bowtie", 0x22c8, ARel); ("subseteq", 0x2286, ARel);
   ("supseteq", 0x2287, ARel); ("cong", 0x2245, ARel); ("sqsubset", 0x228f, ARel); ("sqsupset", 0x2290, ARel);
   ("Join", 0x22c8, ARel); ("smile", 0x2323, ARel); ("sqsubseteq", 0x2291, ARel); ("sqsupseteq", 0x2292, ARel);
   ("doteq", 0x2250, ARel); ("frown", 0x2322, ARel); ("in", 0x2208, ARel); ("ni", 0x220b, ARel); ("owns", 0x220b, ARel);
   ("propto", 0x221d, ARel); ("models", 0x22a8, ARel); ("vdash", 0x22a2, ARel); ("dashv", 0x22a3, ARel); ("notin", 0x2209, ARel);
   ("neq", 0x2260, ARel); ("ne", 0x2260, ARel); ("leftarrow", 0x2190, ARel); ("gets", 0x2190, ARel); ("rightarrow", 0x2192, ARel);
   ("to", 0x2192, ARel); ("leftrightarrow", 0x2194, ARel); ("Leftarrow", 0x21d0, ARel); ("Rightarrow", 0x21d2, ARel);
   ("Leftrightarrow", 0x21d4, ARel); ("uparrow", 0x2191, ARel); ("downarrow", 0x2193, ARel); ("updownarrow", 0x2195, ARel);
   ("Uparrow", 0x21d1, ARel); ("Downarrow", 0x21d3, ARel); ("Updownarrow", 0x21d5, ARel); ("nearrow", 0x2197, ARel);
   ("searrow", 0x2198, ARel); ("swarrow", 0x2199, ARel); ("nwarrow", 0x2196, ARel); ("mapsto", 0x21a6, ARel);
   ("longmapsto", 0x27fc, ARel); ("hookleftarrow", 0x21a9, ARel); ("hookrightarrow", 0x21aa, ARel);
   ("leftharpoonup", 0x21bc, ARel); ("leftharpoondown", 0x21bd, ARel); ("rightharpoonup", 0x21c0, ARel);
   ("rightharpoondown", 0x21c1, ARel); ("rightleftharpoons", 0x21cc, ARel); ("longleftarrow", 0x27f5, ARel);
   ("longrightarrow", 0x27f6, ARel); ("longleftrightarrow", 0x27f7, ARel); ("Longleftarrow", 0x27f8, ARel);
   ("Longrightarrow", 0x27f9, ARel); ("Longleftrightarrow", 0x27fa, ARel); ("leadsto", 0x21dd, ARel); ("leqq", 0x2266, ARel);
   ("leqslant", 0x2a7d, ARel); ("eqslantless", 0x2a95, ARel); ("lesssim", 0x2272, ARel); ("lessapprox", 0x2a85, ARel);
   ("approxeq", 0x224a, ARel); ("lll", 0x22d8, ARel); ("llless", 0x22d8, ARel); ("lessgtr", 0x2276, ARel);
   ("lesseqgtr", 0x22da, ARel); ("lesseqqgtr", 0x2a8b, ARel); ("doteqdot", 0x2251, ARel); ("Doteq", 0x2251, ARel);
   ("risingdotseq", 0x2253, ARel); ("fallingdotseq", 0x2252, ARel); ("backsim", 0x223d, ARel); ("backsimeq", 0x22cd, ARel);
   ("subseteqq", 0x2ac5, ARel); ("Subset", 0x22d0, ARel); ("preccurlyeq", 0x227c, ARel); ("curlyeqprec", 0x22de, ARel);
   ("precsim", 0x227e, ARel); ("precapprox", 0x2ab7, ARel); ("vartriangleleft", 0x22b2, ARel); ("trianglelefteq", 0x22b4, ARel);
   ("vDash", 0x22a8, ARel); ("Vvdash", 0x22aa, ARel); ("Vdash", 0x22a9, ARel); ("bumpeq", 0x224f, ARel); ("Bumpeq", 0x224e, ARel);
   ("geqq", 0x2267, ARel); ("geqslant", 0x2a7e, ARel); ("eqslantgtr", 0x2a96, ARel); ("gtrsim", 0x2273, ARel);
   ("gtrapprox", 0x2a86, ARel); ("ggg", 0x22d9, ARel); ("gggtr", 0x22d9, ARel); ("gtrless", 0x2277, ARel);
   ("gtreqless", 0x22db, ARel); ("gtreqqless", 0x2a8c, ARel); ("eqcirc", 0x2256, ARel); ("circeq", 0x2257, ARel);
   ("triangleq", 0x225c, ARel); ("supseteqq", 0x2ac6, ARel); ("Supset", 0x22d1, ARel); ("succcurlyeq", 0x227d, ARel);
   ("curlyeqsucc", 0x22df, ARel); ("succsim", 0x227f, ARel); ("succapprox", 0x2ab8, ARel); ("vartriangleright", 0x22b3, ARel);
   ("trianglerighteq", 0x22b5, ARel); ("between", 0x226c, ARel); ("pitchfork", 0x22d4, ARel); ("blacktriangleleft", 0x25c0, ARel);
   ("blacktriangleright", 0x25b6, ARel); ("therefore", 0x2234, ARel); ("because", 0x2235, ARel); ("backepsilon", 0x3f6, ARel);
   ("vartriangle", 0x25b3, ARel); ("nless", 0x226e, ARel); ("nleq", 0x2270, ARel); ("lneq", 0x2a87, ARel); ("lneqq", 0x2268, ARel);
   ("lnsim", 0x22e6, ARel); ("lnapprox", 0x2a89, ARel); ("nprec", 0x2280, ARel); ("npreceq", 0x22e0, ARel);
   ("precneqq", 0x2ab5, ARel); ("precnsim", 0x22e8, ARel); ("precnapprox", 0x2ab9, ARel); ("nsim", 0x2241, ARel);
   ("nmid", 0x2224, ARel); ("nvdash", 0x22ac, ARel); ("nvDash", 0x22ad, ARel); ("ntriangleleft", 0x22ea, ARel);
   ("ntrianglelefteq", 0x22ec, ARel); ("nsubseteq", 0x2288, ARel); ("subsetneq", 0x228a, ARel); ("subsetneqq", 0x2acb, ARel);
   ("ngtr", 0x226f, ARel); ("ngeq", 0x2271, ARel); ("gneq", 0x2a88, ARel); ("gneqq", 0x2269, ARel); ("gnsim", 0x22e7, ARel);
   ("gnapprox", 0x2a8a, ARel); ("nsucc", 0x2281, ARel); ("nsucceq", 0x22e1, ARel); ("succneqq", 0x2ab6, ARel);
   ("succnsim", 0x22e9, ARel); ("succnapprox", 0x2aba, ARel); ("ncong", 0x2247, ARel); ("nparallel", 0x2226, ARel);
   ("nVdash", 0x22ae, ARel); ("nVDash", 0x22af, ARel); ("ntriangleright", 0x22eb, ARel); ("ntrianglerighteq", 0x22ed, ARel);
   ("nsupseteq", 0x2289, ARel); ("supsetneq", 0x228b, ARel); ("supsetneqq", 0x2acc, ARel); ("dashrightarrow", 0x21e2, ARel);
   ("dashleftarrow", 0x21e0, ARel); ("leftleftarrows", 0x21c7, ARel); ("leftrightarrows", 0x21c6, ARel);
   ("Lleftarrow", 0x21da, ARel); ("twoheadleftarrow", 0x219e, ARel); ("leftarrowtail", 0x21a2, ARel);
   ("looparrowleft", 0x21ab, ARel); ("leftrightharpoons", 0x21cb, ARel); ("curvearrowleft", 0x21b6, ARel);
   ("circlearrowleft", 0x21ba, ARel); ("Lsh", 0x21b0, ARel); ("upuparrows", 0x21c8, ARel); ("upharpoonleft", 0x21bf, ARel);
   ("downharpoonleft", 0x21c3, ARel); ("multimap", 0x22b8, ARel); ("leftrightsquigarrow", 0x21ad, ARel);
   ("rightrightarrows", 0x21c9, ARel); ("rightleftarrows", 0x21c4, ARel); ("Rrightarrow", 0x21db, ARel);
   ("twoheadrightarrow", 0x21a0, ARel); ("rightarrowtail", 0x21a3, ARel); ("looparrowright", 0x21ac, ARel);
   ("curvearrowright", 0x21b7, ARel); ("circlearrowright", 0x21bb, ARel); ("Rsh", 0x21b1, ARel); ("downdownarrows", 0x21ca, ARel);
   ("upharpoonright", 0x21be, ARel); ("restriction", 0x21be, ARel); ("downharpoonright", 0x21c2, ARel);
   ("rightsquigarrow", 0x21dd, ARel); ("nleftarrow", 0x219a, ARel); ("nrightarrow", 0x219b, ARel); ("nLeftarrow", 0x21cd, ARel);
   ("nRightarrow", 0x21cf, ARel); ("nleftrightarrow", 0x21ae, ARel); ("nLeftrightarrow", 0x21ce, ARel); ("eqsim", 0x2242, ARel);
   ("forall", 0x2200, AOrd); ("exists", 0x2203, AOrd); ("neg", 0xac, AOrd); ("lnot", 0xac, AOrd); ("top", 0x22a4, AOrd);
   ("bot", 0x22a5, AOrd); ("nabla", 0x2207, AOrd); ("partial", 0x2202, AOrd); ("infty", 0x221e, AOrd); ("aleph", 0x2135, AOrd);
   ("Re", 0x211c, AOrd); ("Im", 0x2111, AOrd); ("wp", 0x2118, AOrd); ("ell", 0x2113, AOrd); ("hbar", 0x210f, AOrd);
   ("imath", 0x131, AOrd); ("jmath", 0x237, AOrd); ("prime", 0x2032, AOrd); ("angle", 0x2220, AOrd); ("triangle", 0x25b3, AOrd);
   ("clubsuit", 0x2663, AOrd); ("diamondsuit", 0x2662, AOrd); ("heartsuit", 0x2661, AOrd); ("spadesuit", 0x2660, AOrd);
   ("flat", 0x266d, AOrd); ("natural", 0x266e, AOrd); ("sharp", 0x266f, AOrd); ("backslash", 0x5c, AOrd); ("vert", 0x7c, AOrd);
   ("Vert", 0x2016, AOrd); ("vdots", 0x22ee, AOrd); ("square", 0x25a1, AOrd); ("Box", 0x25fb, AOrd); ("Diamond", 0x25ca, AOrd);
   ("blacksquare", 0x25a0, AOrd); ("lozenge", 0x25ca, AOrd); ("blacklozenge", 0x29eb, AOrd); ("bigstar", 0x2605, AOrd);
   ("circledS", 0x24c8, AOrd); ("hslash", 0x210f, AOrd); ("complement", 0x2201, AOrd); ("eth", 0xf0, AOrd); ("mho", 0x2127, AOrd);
   ("Finv", 0x2132, AOrd); ("Game", 0x2141, AOrd); ("Bbbk", 0x1d55c, AOrd); ("beth", 0x2136, AOrd); ("gimel", 0x2137, AOrd);
   ("daleth", 0x2138, AOrd); ("measuredangle", 0x2221, AOrd); ("sphericalangle", 0x2222, AOrd); ("nexists", 0x2204, AOrd);
   ("varnothing", 0x2205, AOrd); ("backprime", 0x2035, AOrd); ("triangledown", 0x25bd, AOrd); ("blacktriangle", 0x25b2, AOrd);
   ("blacktriangledown", 0x25bc, AOrd); ("diagup", 0x27cb, AOrd); ("diagdown", 0x27cd, AOrd); ("maltese", 0x2720, AOrd);
   ("yen", 0xa5, AOrd); ("checkmark", 0x2713, AOrd); ("circledR", 0x24c7, AOrd); ("digamma", 0x3dd, AOrd);
   ("varkappa", 0x3f0, AOrd); ("alpha", 0x3b1, AOrd); ("beta", 0x3b2, AOrd); ("gamma", 0x3b3, AOrd); ("delta", 0x3b4, AOrd);
   ("epsilon", 0x3f5, AOrd); ("varepsilon", 0x3b5, AOrd); ("zeta", 0x3b6, AOrd); ("eta", 0x3b7, AOrd); ("theta", 0x3b8, AOrd);
   ("vartheta", 0x3d1, AOrd); ("iota", 0x3b9, AOrd); ("kappa", 0x3ba, AOrd); ("lambda", 0x3bb, AOrd); ("mu", 0x3bc, AOrd);
   ("nu", 0x3bd, AOrd); ("xi", 0x3be, AOrd); ("omicron", 0x3bf, AOrd); ("pi", 0x3c0, AOrd); ("varpi", 0x3d6, AOrd);
   ("rho", 0x3c1, AOrd); ("varrho", 0x3f1, AOrd); ("sigma", 0x3c3, AOrd); ("varsigma", 0x3c2, AOrd); ("tau", 0x3c4, AOrd);
   ("upsilon", 0x3c5, AOrd); ("phi", 0x3d5, AOrd); ("varphi", 0x3c6, AOrd); ("chi", 0x3c7, AOrd); ("psi", 0x3c8, AOrd);
   ("omega", 0x3c9, AOrd); ("Gamma", 0x393, AOrd); ("Delta", 0x394, AOrd); ("Theta", 0x398, AOrd); ("Lambda", 0x39b, AOrd);
   ("Xi", 0x39e, AOrd); ("Pi", 0x3a0, AOrd); ("Sigma", 0x3a3, AOrd); ("Upsilon", 0x3a5, AOrd); ("Phi", 0x3a6, AOrd);
   ("Psi", 0x3a8, AOrd); ("Omega", 0x3a9, AOrd); ("sum", 0x2211, AOp); ("prod", 0x220f, AOp); ("coprod", 0x2210, AOp);
   ("int", 0x222b, AOp); ("oint", 0x222e, AOp); ("bigcap", 0x22c2, AOp); ("bigcup", 0x22c3, AOp); ("bigodot", 0x2a00, AOp);
   ("bigoplus", 0x2a01, AOp); ("bigotimes", 0x2a02, AOp); ("bigsqcup", 0x2a06, AOp); ("biguplus", 0x2a04, AOp);
   ("bigvee", 0x22c1, AOp); ("bigwedge", 0x22c0, AOp); ("iint", 0x222c, AOp); ("iiint", 0x222d, AOp); ("iiiint", 0x2a0c, AOp);
   ("oiint", 0x222f, AOp); ("oiiint", 0x2230, AOp); ("ldotp", 0x2e, APunct); ("cdotp", 0xb7, APunct); ("colon", 0x3a, APunct);
   ("ddots", 0x22f1, AInner); ("lfloor", 0x230a, AOpen); ("lceil", 0x2308, AOpen); ("langle", 0x27e8, AOpen);
   ("lbrace", 0x7b, AOpen); ("lgroup", 0x27ee, AOpen); ("lmoustache", 0x23b0, AOpen); ("lvert", 0x7c, AOpen);
   ("lVert", 0x2016, AOpen); ("ulcorner", 0x231c, AOpen); ("llcorner", 0x231e, AOpen); ("lbrack", 0x5b, AOpen);
   ("rfloor", 0x230b, AClose); ("rceil", 0x2309, AClose); ("rangle", 0x27e9, AClose); ("rbrace", 0x7d, AClose);
   ("rgroup", 0x27ef, AClose); ("rmoustache", 0x23b1, AClose); ("rvert", 0x7c, AClose); ("rVert", 0x2016, AClose);
   ("urcorner", 0x231d, AClose); ("lrcorner", 0x231f, AClose); ("rbrack", 0x5d, AClose)]%string.

(** ** Symbols of the code *)

(** The characters that are drawn for a token. *)
Definition shown (t : token) : str :=
  match t with
  | T_Letter c _ | T_UprightLetter c => sc_text c
  | T_Ord o | T_Open o | T_Close o => sc_text (ord_as_op o)
  | T_Relation r => sc_text (rel_as_op r)
  | T_BinaryOp o => sc_text (bin_as_op o)
  | T_Op o | T_Inner o => sc_text (op_as_op o)
  | T_Punctuation c => sc_text (sc_from_char c)
  | T_ForceOrd o | T_ForceBinaryOp o | T_ForceRelation o | T_ForceOpen o _ | T_ForceClose o _ | T_ForcePunctuation o | T_ForceMathInner o | T_ForceLargeOp o => sc_text o
  | T_SquareBracketOpen => [91]
  | T_SquareBracketClose => [93]
  | T_PseudoOperator s | T_PseudoOperatorLimits s => s
  | _ => []
  end.
(** A token is the symbol with the character [c] and the class [a]. *)
Definition is_symbol (t : token) (c : N) (a : atom) : Prop := sym_atom t = Some a /\ shown t = [c].
Definition listed (l : list string) (n : str) : bool := existsb (fun s => str_eqb n (lit s)) l.

(** Names of unicode-math that are something else in the code. *)
Definition um_others : list string := ["cdotp"; "sqrt"; "surd"; "therefore"; "because"; "dashcolon"; "coloneq"; "eqcolon"; "models"; "blacktriangle"; "vartriangle";
   "blacktriangleright"; "bigtriangledown"; "blacktriangledown"; "triangledown"; "blacktriangleleft"; "Join"; "Coloneq"; "imath";
   "jmath"]%string.
(** Names of LaTeX that are something else in the code. *)
Definition latex_others : list string := ["bigcirc"; "dag"; "ddag"; "lhd"; "unlhd"; "rhd"; "unrhd"; "backepsilon"; "vdots"; "colon"; "ddots"]%string.
(** Characters that are something else in the code than in unicode-math. *)
Definition um_char_others : list N := [0x24; 0x26; 0x3a; 0x7b; 0x7d; 0xb7; 0x2032; 0x2033; 0x2034; 0x2035; 0x2036; 0x2037; 0x2050; 0x2057; 0x221a; 0x221b; 0x221c;
   0x2305; 0x2306; 0x233d; 0x233f; 0x25b5; 0x27cc; 0x27d3; 0x27d4; 0x27e0; 0x27e1; 0x27e2; 0x27e3; 0x27e4; 0x27e5; 0x2919; 0x291a;
   0x292b; 0x292c; 0x292d; 0x292e; 0x292f; 0x2930; 0x2931; 0x2932; 0x2934; 0x2935; 0x29cd; 0x29d6; 0x29d7; 0x29e0; 0x29eb; 0x29fe;
   0x29ff; 0x2a1f; 0x2a20; 0x2a21; 0x2a59; 0x2a61; 0x2a71; 0x2a72; 0x2ad9; 0x2ada; 0x2adb; 0x2adc; 0x2add; 0x2ae1; 0x2aec; 0x2aed;
   0x2aef; 0x2af0; 0x2af4; 0x2af5; 0x2afb; 0x1eef0; 0x1eef1].
(** Names for which the code has another class than for their characters. *)
Definition unlike_typed : list string := ["$"; "&"; "Yleft"; "Yright"; "_"; "backprime"; "because"; "bigtriangledown"; "blacktriangleleft"; "blacktriangleright";
   "circlearrowleft"; "circlearrowright"; "colon"; "dag"; "dashleftarrow"; "dashrightarrow"; "ddag"; "lVert"; "lbrace"; "ldotp";
   "lvert"; "prime"; "rVert"; "rbrace"; "rvert"; "therefore"; "triangle"; "vartriangle"; "{"; "}"; "cdots"]%string.

(** ** Texts *)

(** What a symbol in a text is, by its name in LaTeX or unicode-math or by its character. *)
Definition name_symbol (n : str) : option (N * atom) :=
  match assoc_str n latex with
  | Some p => if listed latex_others n then None else Some p
  | None =>
      match assoc_str n unicode_math with
      | Some (c, k) => if listed um_others n then None else Some (c, um_atom k)
      | None => None
      end
  end.
Definition char_symbol (c : N) : option (N * atom) :=
  if existsb (N.eqb c) um_char_others || negb (sym_char_ok c) then None
  else option_map (fun p => (c, um_atom (snd (snd p)))) (find (fun p => fst (snd p) =? c) unicode_math).
(** Letters are no operators. *)
Definition text_symbol (s : sym) : option (N * atom) :=
  match s with
  | SName n => name_symbol n
  | SChar c => if is_ascii_alpha c then Some (c, AOrd) else char_symbol c
  | STok _ => None
  end.
(** An item that is a symbol or a number, perhaps with scripts: what is written and its class. *)
Definition item_symbol (i : item) : option (str * atom) :=
  match i with
  | Item (HSym s []) ms =>
      match text_symbol s, ms with
      | Some (c, a), [] => Some ([c], a)
      | Some (c, (AOrd | AOp | AOpen | AClose) as a), _ => Some ([c], a)
      | _, _ => None
      end
  | Item (HNum s) _ => if number_ok s then Some (s, AOrd) else None
  | _ => None
  end.
(** The names in an item that the code knows. *)
Definition item_known (allow_unreliable conventional : bool) (i : item) : bool :=
  match i with Item (HSym (SName n) _) _ => match resolve_builtin allow_unreliable conventional n with Some _ => true | None => false end | _ => true end.
(** All characters in an element. *)
Fixpoint xml_chars (x : xml) : str := match x with XElem _ _ l => flat_map xml_chars l | XText s => s end.
