(** * The ITU tables, /repo/pycomlink/processing/k_R_relation.py:271-389

    Generated by tools/gen_itu.py from the literals of the source.  [(m, e)]
    stands for the decimal m * 10^-e.  Rows: frequency, k_H, k_V, alpha_H,
    alpha_V. *)
From Coq Require Import List ZArith.
Import ListNotations.

(** k_R_relation.py:271-379, row freq *)
Definition ITU_table_2005_freq : list (Z * nat) := [
  (1%Z, 0); (15%Z, 1); (2%Z, 0); (25%Z, 1); (3%Z, 0); (35%Z, 1); (4%Z, 0);
  (45%Z, 1); (5%Z, 0); (55%Z, 1); (6%Z, 0); (7%Z, 0); (8%Z, 0); (9%Z, 0);
  (10%Z, 0); (11%Z, 0); (12%Z, 0); (13%Z, 0); (14%Z, 0); (15%Z, 0); (16%Z, 0);
  (17%Z, 0); (18%Z, 0); (19%Z, 0); (20%Z, 0); (21%Z, 0); (22%Z, 0); (23%Z, 0);
  (24%Z, 0); (25%Z, 0); (26%Z, 0); (27%Z, 0); (28%Z, 0); (29%Z, 0); (30%Z, 0);
  (31%Z, 0); (32%Z, 0); (33%Z, 0); (34%Z, 0); (35%Z, 0); (36%Z, 0); (37%Z, 0);
  (38%Z, 0); (39%Z, 0); (40%Z, 0); (41%Z, 0); (42%Z, 0); (43%Z, 0); (44%Z, 0);
  (45%Z, 0); (46%Z, 0); (47%Z, 0); (48%Z, 0); (49%Z, 0); (50%Z, 0); (51%Z, 0);
  (52%Z, 0); (53%Z, 0); (54%Z, 0); (55%Z, 0); (56%Z, 0); (57%Z, 0); (58%Z, 0);
  (59%Z, 0); (60%Z, 0); (61%Z, 0); (62%Z, 0); (63%Z, 0); (64%Z, 0); (65%Z, 0);
  (66%Z, 0); (67%Z, 0); (68%Z, 0); (69%Z, 0); (70%Z, 0); (71%Z, 0); (72%Z, 0);
  (73%Z, 0); (74%Z, 0); (75%Z, 0); (76%Z, 0); (77%Z, 0); (78%Z, 0); (79%Z, 0);
  (80%Z, 0); (81%Z, 0); (82%Z, 0); (83%Z, 0); (84%Z, 0); (85%Z, 0); (86%Z, 0);
  (87%Z, 0); (88%Z, 0); (89%Z, 0); (90%Z, 0); (91%Z, 0); (92%Z, 0); (93%Z, 0);
  (94%Z, 0); (95%Z, 0); (96%Z, 0); (97%Z, 0); (98%Z, 0); (99%Z, 0); (100%Z, 0)
].
(** k_R_relation.py:271-379, row k_H *)
Definition ITU_table_2005_k_H : list (Z * nat) := [
  (259%Z, 7); (443%Z, 7); (847%Z, 7); (1321%Z, 7); (139%Z, 6); (1155%Z, 7); (1071%Z, 7);
  (134%Z, 6); (2162%Z, 7); (3909%Z, 7); (7056%Z, 7); (1915%Z, 6); (4115%Z, 6); (7535%Z, 6);
  (1217%Z, 5); (1772%Z, 5); (2386%Z, 5); (3041%Z, 5); (3738%Z, 5); (4481%Z, 5); (5282%Z, 5);
  (6146%Z, 5); (7078%Z, 5); (8084%Z, 5); (9164%Z, 5); (1032%Z, 4); (1155%Z, 4); (1286%Z, 4);
  (1425%Z, 4); (1571%Z, 4); (1724%Z, 4); (1884%Z, 4); (2051%Z, 4); (2224%Z, 4); (2403%Z, 4);
  (2588%Z, 4); (2778%Z, 4); (2972%Z, 4); (3171%Z, 4); (3374%Z, 4); (358%Z, 3); (3789%Z, 4);
  (4001%Z, 4); (4215%Z, 4); (4431%Z, 4); (4647%Z, 4); (4865%Z, 4); (5084%Z, 4); (5302%Z, 4);
  (5521%Z, 4); (5738%Z, 4); (5956%Z, 4); (6172%Z, 4); (6386%Z, 4); (66%Z, 2); (6811%Z, 4);
  (702%Z, 3); (7228%Z, 4); (7433%Z, 4); (7635%Z, 4); (7835%Z, 4); (8032%Z, 4); (8226%Z, 4);
  (8418%Z, 4); (8606%Z, 4); (8791%Z, 4); (8974%Z, 4); (9153%Z, 4); (9328%Z, 4); (9501%Z, 4);
  (967%Z, 3); (9836%Z, 4); (9999%Z, 4); (10159%Z, 4); (10315%Z, 4); (10468%Z, 4); (10618%Z, 4);
  (10764%Z, 4); (10908%Z, 4); (11048%Z, 4); (11185%Z, 4); (1132%Z, 3); (11451%Z, 4); (11579%Z, 4);
  (11704%Z, 4); (11827%Z, 4); (11946%Z, 4); (12063%Z, 4); (12177%Z, 4); (12289%Z, 4); (12398%Z, 4);
  (12504%Z, 4); (12607%Z, 4); (12708%Z, 4); (12807%Z, 4); (12903%Z, 4); (12997%Z, 4); (13089%Z, 4);
  (13179%Z, 4); (13266%Z, 4); (13351%Z, 4); (13434%Z, 4); (13515%Z, 4); (13594%Z, 4); (13671%Z, 4)
].
(** k_R_relation.py:271-379, row k_V *)
Definition ITU_table_2005_k_V : list (Z * nat) := [
  (308%Z, 7); (574%Z, 7); (998%Z, 7); (1464%Z, 7); (1942%Z, 7); (2346%Z, 7); (2461%Z, 7);
  (2347%Z, 7); (2428%Z, 7); (3115%Z, 7); (4878%Z, 7); (1425%Z, 6); (345%Z, 5); (6691%Z, 6);
  (1129%Z, 5); (1731%Z, 5); (2455%Z, 5); (3266%Z, 5); (4126%Z, 5); (5008%Z, 5); (5899%Z, 5);
  (6797%Z, 5); (7708%Z, 5); (8642%Z, 5); (9611%Z, 5); (1063%Z, 4); (117%Z, 3); (1284%Z, 4);
  (1404%Z, 4); (1533%Z, 4); (1669%Z, 4); (1813%Z, 4); (1964%Z, 4); (2124%Z, 4); (2291%Z, 4);
  (2465%Z, 4); (2646%Z, 4); (2833%Z, 4); (3026%Z, 4); (3224%Z, 4); (3427%Z, 4); (3633%Z, 4);
  (3844%Z, 4); (4058%Z, 4); (4274%Z, 4); (4492%Z, 4); (4712%Z, 4); (4932%Z, 4); (5153%Z, 4);
  (5375%Z, 4); (5596%Z, 4); (5817%Z, 4); (6037%Z, 4); (6255%Z, 4); (6472%Z, 4); (6687%Z, 4);
  (6901%Z, 4); (7112%Z, 4); (7321%Z, 4); (7527%Z, 4); (773%Z, 3); (7931%Z, 4); (8129%Z, 4);
  (8324%Z, 4); (8515%Z, 4); (8704%Z, 4); (8889%Z, 4); (9071%Z, 4); (925%Z, 3); (9425%Z, 4);
  (9598%Z, 4); (9767%Z, 4); (9932%Z, 4); (10094%Z, 4); (10253%Z, 4); (10409%Z, 4); (10561%Z, 4);
  (10711%Z, 4); (10857%Z, 4); (11%Z, 1); (11139%Z, 4); (11276%Z, 4); (1141%Z, 3); (11541%Z, 4);
  (11668%Z, 4); (11793%Z, 4); (11915%Z, 4); (12034%Z, 4); (12151%Z, 4); (12265%Z, 4); (12376%Z, 4);
  (12484%Z, 4); (1259%Z, 3); (12694%Z, 4); (12795%Z, 4); (12893%Z, 4); (12989%Z, 4); (13083%Z, 4);
  (13175%Z, 4); (13265%Z, 4); (13352%Z, 4); (13437%Z, 4); (1352%Z, 3); (13601%Z, 4); (1368%Z, 3)
].
(** k_R_relation.py:271-379, row alpha_H *)
Definition ITU_table_2005_alpha_H : list (Z * nat) := [
  (9691%Z, 4); (10185%Z, 4); (10664%Z, 4); (11209%Z, 4); (12322%Z, 4); (14189%Z, 4); (16009%Z, 4);
  (16948%Z, 4); (16969%Z, 4); (16499%Z, 4); (159%Z, 2); (1481%Z, 3); (13905%Z, 4); (13155%Z, 4);
  (12571%Z, 4); (1214%Z, 3); (11825%Z, 4); (11586%Z, 4); (11396%Z, 4); (11233%Z, 4); (11086%Z, 4);
  (10949%Z, 4); (10818%Z, 4); (10691%Z, 4); (10568%Z, 4); (10447%Z, 4); (10329%Z, 4); (10214%Z, 4);
  (10101%Z, 4); (9991%Z, 4); (9884%Z, 4); (978%Z, 3); (9679%Z, 4); (958%Z, 3); (9485%Z, 4);
  (9392%Z, 4); (9302%Z, 4); (9214%Z, 4); (9129%Z, 4); (9047%Z, 4); (8967%Z, 4); (889%Z, 3);
  (8816%Z, 4); (8743%Z, 4); (8673%Z, 4); (8605%Z, 4); (8539%Z, 4); (8476%Z, 4); (8414%Z, 4);
  (8355%Z, 4); (8297%Z, 4); (8241%Z, 4); (8187%Z, 4); (8134%Z, 4); (8084%Z, 4); (8034%Z, 4);
  (7987%Z, 4); (7941%Z, 4); (7896%Z, 4); (7853%Z, 4); (7811%Z, 4); (7771%Z, 4); (7731%Z, 4);
  (7693%Z, 4); (7656%Z, 4); (7621%Z, 4); (7586%Z, 4); (7552%Z, 4); (752%Z, 3); (7488%Z, 4);
  (7458%Z, 4); (7428%Z, 4); (74%Z, 2); (7372%Z, 4); (7345%Z, 4); (7318%Z, 4); (7293%Z, 4);
  (7268%Z, 4); (7244%Z, 4); (7221%Z, 4); (7199%Z, 4); (7177%Z, 4); (7156%Z, 4); (7135%Z, 4);
  (7115%Z, 4); (7096%Z, 4); (7077%Z, 4); (7058%Z, 4); (704%Z, 3); (7023%Z, 4); (7006%Z, 4);
  (699%Z, 3); (6974%Z, 4); (6959%Z, 4); (6944%Z, 4); (6929%Z, 4); (6915%Z, 4); (6901%Z, 4);
  (6888%Z, 4); (6875%Z, 4); (6862%Z, 4); (685%Z, 3); (6838%Z, 4); (6826%Z, 4); (6815%Z, 4)
].
(** k_R_relation.py:271-379, row alpha_V *)
Definition ITU_table_2005_alpha_V : list (Z * nat) := [
  (8592%Z, 4); (8957%Z, 4); (949%Z, 3); (10085%Z, 4); (10688%Z, 4); (11387%Z, 4); (12476%Z, 4);
  (13987%Z, 4); (15317%Z, 4); (15882%Z, 4); (15728%Z, 4); (14745%Z, 4); (13797%Z, 4); (12895%Z, 4);
  (12156%Z, 4); (11617%Z, 4); (11216%Z, 4); (10901%Z, 4); (10646%Z, 4); (1044%Z, 3); (10273%Z, 4);
  (10137%Z, 4); (10025%Z, 4); (993%Z, 3); (9847%Z, 4); (9771%Z, 4); (97%Z, 2); (963%Z, 3);
  (9561%Z, 4); (9491%Z, 4); (9421%Z, 4); (9349%Z, 4); (9277%Z, 4); (9203%Z, 4); (9129%Z, 4);
  (9055%Z, 4); (8981%Z, 4); (8907%Z, 4); (8834%Z, 4); (8761%Z, 4); (869%Z, 3); (8621%Z, 4);
  (8552%Z, 4); (8486%Z, 4); (8421%Z, 4); (8357%Z, 4); (8296%Z, 4); (8236%Z, 4); (8179%Z, 4);
  (8123%Z, 4); (8069%Z, 4); (8017%Z, 4); (7967%Z, 4); (7918%Z, 4); (7871%Z, 4); (7826%Z, 4);
  (7783%Z, 4); (7741%Z, 4); (77%Z, 2); (7661%Z, 4); (7623%Z, 4); (7587%Z, 4); (7552%Z, 4);
  (7518%Z, 4); (7486%Z, 4); (7454%Z, 4); (7424%Z, 4); (7395%Z, 4); (7366%Z, 4); (7339%Z, 4);
  (7313%Z, 4); (7287%Z, 4); (7262%Z, 4); (7238%Z, 4); (7215%Z, 4); (7193%Z, 4); (7171%Z, 4);
  (715%Z, 3); (713%Z, 3); (711%Z, 3); (7091%Z, 4); (7073%Z, 4); (7055%Z, 4); (7038%Z, 4);
  (7021%Z, 4); (7004%Z, 4); (6988%Z, 4); (6973%Z, 4); (6958%Z, 4); (6943%Z, 4); (6929%Z, 4);
  (6915%Z, 4); (6902%Z, 4); (6889%Z, 4); (6876%Z, 4); (6864%Z, 4); (6852%Z, 4); (684%Z, 3);
  (6828%Z, 4); (6817%Z, 4); (6806%Z, 4); (6796%Z, 4); (6785%Z, 4); (6775%Z, 4); (6765%Z, 4)
].
Definition ITU_table_2005 : list (list (Z * nat)) :=
  [ITU_table_2005_freq; ITU_table_2005_k_H; ITU_table_2005_k_V; ITU_table_2005_alpha_H; ITU_table_2005_alpha_V].

(** k_R_relation.py:381-389, row freq *)
Definition ITU_table_2003_freq : list (Z * nat) := [
  (1%Z, 0); (2%Z, 0); (4%Z, 0); (6%Z, 0); (7%Z, 0); (8%Z, 0); (10%Z, 0);
  (12%Z, 0); (15%Z, 0); (20%Z, 0); (25%Z, 0); (30%Z, 0); (35%Z, 0); (40%Z, 0);
  (45%Z, 0); (50%Z, 0); (60%Z, 0); (70%Z, 0); (80%Z, 0); (90%Z, 0); (100%Z, 0)
].
(** k_R_relation.py:381-389, row k_H *)
Definition ITU_table_2003_k_H : list (Z * nat) := [
  (387%Z, 7); (2%Z, 4); (6%Z, 4); (18%Z, 4); (3%Z, 3); (45%Z, 4); (101%Z, 4);
  (188%Z, 4); (367%Z, 4); (751%Z, 4); (124%Z, 3); (187%Z, 3); (263%Z, 3); (35%Z, 2);
  (442%Z, 3); (536%Z, 3); (707%Z, 3); (851%Z, 3); (975%Z, 3); (106%Z, 2); (112%Z, 2)
].
(** k_R_relation.py:381-389, row k_V *)
Definition ITU_table_2003_k_V : list (Z * nat) := [
  (352%Z, 7); (1%Z, 4); (6%Z, 4); (16%Z, 4); (26%Z, 4); (4%Z, 3); (89%Z, 4);
  (168%Z, 4); (335%Z, 4); (691%Z, 4); (113%Z, 3); (167%Z, 3); (233%Z, 3); (31%Z, 2);
  (393%Z, 3); (479%Z, 3); (642%Z, 3); (784%Z, 3); (906%Z, 3); (999%Z, 3); (106%Z, 2)
].
(** k_R_relation.py:381-389, row alpha_H *)
Definition ITU_table_2003_alpha_H : list (Z * nat) := [
  (912%Z, 3); (963%Z, 3); (1121%Z, 3); (1308%Z, 3); (1332%Z, 3); (1327%Z, 3); (1276%Z, 3);
  (1217%Z, 3); (1154%Z, 3); (1099%Z, 3); (1061%Z, 3); (1021%Z, 3); (979%Z, 3); (939%Z, 3);
  (903%Z, 3); (873%Z, 3); (826%Z, 3); (793%Z, 3); (769%Z, 3); (753%Z, 3); (743%Z, 3)
].
(** k_R_relation.py:381-389, row alpha_V *)
Definition ITU_table_2003_alpha_V : list (Z * nat) := [
  (88%Z, 2); (923%Z, 3); (1075%Z, 3); (1265%Z, 3); (1312%Z, 3); (131%Z, 2); (1264%Z, 3);
  (12%Z, 1); (1128%Z, 3); (1065%Z, 3); (103%Z, 2); (1%Z, 0); (963%Z, 3); (929%Z, 3);
  (897%Z, 3); (868%Z, 3); (824%Z, 3); (793%Z, 3); (769%Z, 3); (754%Z, 3); (744%Z, 3)
].
Definition ITU_table_2003 : list (list (Z * nat)) :=
  [ITU_table_2003_freq; ITU_table_2003_k_H; ITU_table_2003_k_V; ITU_table_2003_alpha_H; ITU_table_2003_alpha_V].
