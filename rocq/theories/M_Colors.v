(** Model of crates/math-core/src/color_defs.rs: the names of the predefined colors. *)
From Verif Require Import Str M_Spec.

(** color_defs.rs:1-94 [COLORS] *)
Definition COLORS : list (str * (N * N * N)) :=
  [ (lit "red", (255, 0, 0));
    (lit "green", (3, 255, 0));
    (lit "blue", (0, 0, 255));
    (lit "cyan", (0, 185, 242));
    (lit "magenta", (251, 49, 153));
    (lit "yellow", (255, 235, 61));
    (lit "black", (0, 0, 0));
    (lit "gray", (128, 128, 128));
    (lit "white", (255, 255, 255));
    (lit "darkgray", (64, 64, 64));
    (lit "lightgray", (191, 191, 191));
    (lit "brown", (191, 128, 63));
    (lit "lime", (191, 255, 4));
    (lit "olive", (159, 140, 24));
    (lit "orange", (255, 128, 1));
    (lit "pink", (255, 191, 191));
    (lit "purple", (191, 1, 64));
    (lit "teal", (0, 128, 128));
    (lit "violet", (128, 0, 128));
    (lit "Apricot", (255, 184, 130));
    (lit "Aquamarine", (28, 191, 193));
    (lit "Bittersweet", (208, 76, 23));
    (lit "Black", (44, 46, 53));
    (lit "Blue", (16, 38, 148));
    (lit "BlueGreen", (20, 188, 188));
    (lit "BlueViolet", (45, 52, 151));
    (lit "BrickRed", (196, 49, 25));
    (lit "Brown", (119, 34, 6));
    (lit "BurntOrange", (255, 142, 39));
    (lit "CadetBlue", (99, 114, 157));
    (lit "CarnationPink", (252, 129, 188));
    (lit "Cerulean", (0, 173, 231));
    (lit "CornflowerBlue", (72, 187, 232));
    (lit "Cyan", (0, 185, 242));
    (lit "Dandelion", (255, 185, 76));
    (lit "DarkOrchid", (158, 80, 143));
    (lit "Emerald", (0, 177, 160));
    (lit "ForestGreen", (18, 159, 87));
    (lit "Fuchsia", (131, 55, 148));
    (lit "Goldenrod", (255, 219, 87));
    (lit "Gray", (155, 156, 159));
    (lit "Green", (0, 171, 79));
    (lit "GreenYellow", (225, 229, 123));
    (lit "JungleGreen", (0, 177, 157));
    (lit "Lavender", (253, 160, 204));
    (lit "LimeGreen", (136, 201, 70));
    (lit "Magenta", (251, 49, 153));
    (lit "Mahogany", (180, 50, 30));
    (lit "Maroon", (186, 49, 50));
    (lit "Melon", (255, 157, 123));
    (lit "MidnightBlue", (0, 104, 150));
    (lit "Mulberry", (168, 62, 158));
    (lit "NavyBlue", (8, 111, 189));
    (lit "OliveGreen", (63, 126, 49));
    (lit "Orange", (255, 124, 55));
    (lit "OrangeRed", (255, 46, 88));
    (lit "Orchid", (172, 114, 185));
    (lit "Peach", (255, 147, 88));
    (lit "Periwinkle", (106, 122, 191));
    (lit "PineGreen", (5, 141, 116));
    (lit "Plum", (135, 41, 150));
    (lit "ProcessBlue", (0, 187, 242));
    (lit "Purple", (143, 69, 163));
    (lit "RawSienna", (158, 60, 14));
    (lit "Red", (255, 46, 23));
    (lit "RedOrange", (255, 92, 49));
    (lit "RedViolet", (168, 44, 114));
    (lit "Rhodamine", (252, 88, 170));
    (lit "RoyalBlue", (0, 115, 192));
    (lit "RoyalPurple", (72, 57, 158));
    (lit "RubineRed", (253, 48, 136));
    (lit "Salmon", (255, 144, 138));
    (lit "SeaGreen", (71, 196, 160));
    (lit "Sepia", (93, 22, 1));
    (lit "SkyBlue", (80, 207, 226));
    (lit "SpringGreen", (196, 220, 110));
    (lit "Tan", (225, 157, 117));
    (lit "TealBlue", (17, 184, 184));
    (lit "Thistle", (222, 132, 191));
    (lit "Turquoise", (16, 190, 210));
    (lit "Violet", (61, 60, 159));
    (lit "VioletRed", (252, 90, 171));
    (lit "White", (255, 255, 255));
    (lit "WildStrawberry", (255, 55, 105));
    (lit "Yellow", (255, 235, 61));
    (lit "YellowGreen", (146, 208, 116));
    (lit "YellowOrange", (255, 159, 43)) ].
(** color_defs.rs:96-98 [get_color] *)
Definition get_color (name : str) : option (N * N * N) := assoc_str name COLORS.
