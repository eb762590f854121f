(** * Certificate data for Spline_cert.v, generated by tools/gen_spline_cert.py *)
From Coq Require Import List QArith.
Import ListNotations.
Local Open Scope Q_scope.

Definition cert_2005_k_H : list Q := [
  499241 # 5000000000; 11 # 125000; 380759 # 5000000000; (-280759) # 1250000000; (-149723) # 1000000000; 93899 # 1000000000;
  1365269 # 10000000000; 1035967 # 5000000000; 1809497 # 5000000000; 5652089 # 10000000000; 7372651 # 10000000000; 9856001 # 10000000000;
  12639343 # 10000000000; 3196657 # 2500000000; 9114147 # 10000000000; 1131357 # 2000000000; 457339 # 1250000000; 861673 # 2000000000;
  1076957 # 2500000000; 242413 # 400000000; 3125437 # 5000000000; 336809 # 500000000; 1520881 # 2000000000; 3623099 # 5000000000;
  3905401 # 5000000000; 1422119 # 2000000000; 8146817 # 10000000000; 1037767 # 1250000000; 6644639 # 10000000000; 1779827 # 2500000000;
  429883 # 625000000; 7368179 # 10000000000; 5649157 # 10000000000; 1207039 # 2000000000; 388129 # 625000000; 5124551 # 10000000000;
  1645867 # 5000000000; 178391 # 312500000; 3874217 # 10000000000; 2794619 # 10000000000; 736827 # 2500000000; 854037 # 2500000000;
  694049 # 5000000000; 3031459 # 10000000000; (-1513933) # 10000000000; 3024273 # 10000000000; 1416841 # 10000000000; (-2691637) # 10000000000;
  1674853 # 5000000000; (-2353593) # 5000000000; 3479039 # 10000000000; (-3208969) # 10000000000; (-2643163) # 10000000000; 890811 # 5000000000;
  (-179333) # 400000000; (-924161) # 5000000000; (-123389) # 10000000000; (-914531) # 2500000000; (-811029) # 2500000000; (-1365413) # 10000000000;
  (-411779) # 1250000000; (-1728829) # 5000000000; (-175027) # 2000000000; (-5041801) # 10000000000; (-2957661) # 10000000000; (-563777) # 5000000000;
  (-1133031) # 2500000000; (-296497) # 625000000; (-49207) # 1000000000; (-660971) # 1250000000; (-2356859) # 10000000000; (-821199) # 2500000000;
  (-2503957) # 10000000000; (-293711) # 625000000; (-1349269) # 5000000000; (-2506471) # 10000000000; (-2637789) # 5000000000; (-78243) # 2000000000;
  (-5159561) # 10000000000; (-1485271) # 5000000000; (-14973) # 156250000; (-5196371) # 10000000000; (-564061) # 2500000000; (-1889327) # 5000000000;
  (-629139) # 10000000000; (-5704789) # 10000000000; (-110341) # 2000000000; (-408839) # 1000000000; (-547367) # 5000000000; (-141307) # 400000000;
  (-554913) # 2000000000; (-3369063) # 10000000000; (-1749183) # 10000000000; (-326841) # 2000000000; (-3713997) # 10000000000; (-1509807) # 10000000000;
  (-1123387) # 5000000000; (-1503097) # 10000000000; (-3740837) # 10000000000; (-383389) # 2500000000; (-106247) # 500000000; (-1966683) # 10000000000;
  (-2008329) # 10000000000; (-1) # 5000; (-1991671) # 10000000000
].
Definition cert_2005_k_V : list Q := [
  1190689 # 10000000000; 79 # 1250000; 73311 # 10000000000; 82757 # 10000000000; (-116339) # 10000000000; (-6967) # 50000000;
  (-1246059) # 10000000000; 881637 # 10000000000; 299939 # 1250000000; 2032157 # 5000000000; 716723 # 1000000000; 11542153 # 10000000000;
  11932159 # 10000000000; 3422303 # 2500000000; 924437 # 625000000; 620341 # 500000000; 274429 # 312500000; 1166567 # 2500000000;
  4883 # 25000000; 720931 # 10000000000; 140769 # 2500000000; 306691 # 2500000000; 582467 # 2500000000; 813441 # 2500000000;
  5655077 # 10000000000; 4125927 # 10000000000; 65947 # 78125000; 4109211 # 10000000000; 556097 # 500000000; 1350757 # 2500000000;
  2316487 # 2500000000; 5533181 # 10000000000; 662583 # 625000000; 3030753 # 5000000000; 7152649 # 10000000000; 7327897 # 10000000000;
  1383941 # 2500000000; 816131 # 1250000000; 2174021 # 5000000000; 3039391 # 5000000000; 1336831 # 10000000000; 3286947 # 5000000000;
  2367591 # 10000000000; 97787 # 500000000; 1809449 # 10000000000; 43851 # 156250000; (-1035307) # 10000000000; 667381 # 5000000000;
  1696259 # 10000000000; (-1059899) # 5000000000; 156587 # 2000000000; (-1011941) # 10000000000; (-683793) # 2500000000; (-11843) # 2500000000;
  (-3075339) # 10000000000; 348727 # 10000000000; (-4319569) # 10000000000; (-267613) # 2500000000; (-1699311) # 5000000000; (-1667529) # 5000000000;
  (-630573) # 5000000000; (-3620357) # 10000000000; (-90297) # 400000000; (-668743) # 1250000000; (-342801) # 10000000000; (-1319713) # 2500000000;
  (-2541791) # 10000000000; (-510797) # 2000000000; (-5242269) # 10000000000; (-238469) # 5000000000; (-4849977) # 10000000000; (-4123153) # 10000000000;
  (-664353) # 2500000000; (-1623599) # 5000000000; (-2353797) # 10000000000; (-1067523) # 2000000000; (-59149) # 2000000000; (-1095881) # 2000000000;
  (-1786633) # 10000000000; (-5374061) # 10000000000; (-717121) # 10000000000; (-1878727) # 5000000000; (-1126531) # 5000000000; (-5230299) # 10000000000;
  (-51609) # 625000000; (-138669) # 400000000; (-3307357) # 10000000000; (-1303849) # 10000000000; (-3477249) # 10000000000; (-2787157) # 10000000000;
  (-843531) # 2500000000; (-858173) # 5000000000; (-440123) # 2500000000; (-648337) # 2000000000; (-1636383) # 5000000000; (-6669) # 40000000;
  (-257279) # 1250000000; (-2099821) # 10000000000; (-385621) # 2500000000; (-932561) # 2500000000; (-768271) # 5000000000; (-2123589) # 10000000000;
  (-1969103) # 10000000000; (-1) # 5000; (-2030897) # 10000000000
].
Definition cert_2005_alpha_H : list Q := [
  86415451 # 10000000000; (-3) # 500; (-206415451) # 10000000000; 493932361 # 2000000000; 3959768231 # 10000000000; (-26591841) # 1250000000;
  (-4236829317) # 10000000000; (-3983948003) # 10000000000; (-1859378669) # 10000000000; (-9063433) # 250000000; 53381987 # 2500000000; 11792801 # 625000000;
  141732787 # 10000000000; 43596009 # 2500000000; 39182767 # 2500000000; 116691691 # 10000000000; 72502167 # 10000000000; 1232491 # 250000000;
  24299273 # 10000000000; 3875817 # 2500000000; 4843827 # 5000000000; 1149223 # 2000000000; 831971 # 2500000000; 1235587 # 2500000000;
  451363 # 5000000000; 13787 # 40000000; 1655137 # 5000000000; 1312153 # 10000000000; 430139 # 1250000000; 2923397 # 10000000000;
  1432649 # 5000000000; 3615409 # 10000000000; 84133 # 1250000000; 5692333 # 10000000000; 278801 # 5000000000; 4077259 # 10000000000;
  1133363 # 10000000000; 423661 # 1250000000; 661897 # 2000000000; 1372771 # 10000000000; 399929 # 1250000000; 7659 # 20000000;
  (-517431) # 10000000000; 132507 # 312500000; 194567 # 1250000000; 153363 # 1000000000; 2154471 # 5000000000; (-769397) # 10000000000;
  2384323 # 5000000000; (-152593) # 5000000000; 2452099 # 10000000000; 2496789 # 10000000000; (-439257) # 10000000000; 2630119 # 5000000000;
  (-520339) # 2000000000; 321659 # 625000000; 97 # 62500000; 6331 # 80000000; 1409489 # 5000000000; (-8411) # 1250000000;
  862543 # 2500000000; (-1733401) # 10000000000; 3483431 # 10000000000; (-50081) # 2500000000; 414733 # 1250000000; (-1071131) # 10000000000;
  966661 # 10000000000; 1602243 # 5000000000; (-1784607) # 10000000000; 3933941 # 10000000000; (-487789) # 2500000000; 774137 # 2000000000;
  (-765791) # 5000000000; 2255643 # 10000000000; (-1490989) # 10000000000; 463539 # 1250000000; (-1342259) # 10000000000; 415181 # 2500000000;
  349681 # 5000000000; 770913 # 5000000000; (-433333) # 5000000000; 48121 # 250000000; (-208173) # 2500000000; 140593 # 1000000000;
  1208973 # 10000000000; (-241821) # 10000000000; (-241687) # 10000000000; 1208571 # 10000000000; 351851 # 2500000000; (-167637) # 2000000000;
  243167 # 1250000000; (-943161) # 10000000000; 1827307 # 10000000000; (-366069) # 10000000000; (-363033) # 10000000000; 909101 # 5000000000;
  (-454887) # 5000000000; 910447 # 5000000000; (-93451) # 2500000000; (-325679) # 10000000000; 1676521 # 10000000000; (-190203) # 5000000000;
  (-154899) # 10000000000; 1 # 10000; 2154899 # 10000000000
].
Definition cert_2005_alpha_V : list Q := [
  141109453 # 1250000000; 42 # 625; 26890547 # 1250000000; (-22248753) # 5000000000; 154865647 # 10000000000; 1729034919 # 10000000000;
  2288994677 # 10000000000; (-757013629) # 10000000000; (-1802470081) # 5000000000; (-3183225723) # 10000000000; (-183631389) # 2000000000; 59216739 # 2000000000;
  (-56177837) # 10000000000; 102313827 # 5000000000; 107833611 # 5000000000; 132703459 # 10000000000; 81518941 # 10000000000; 57220777 # 10000000000;
  49597949 # 10000000000; 1535497 # 400000000; 30852351 # 10000000000; 24203173 # 10000000000; 8167479 # 5000000000; 3114249 # 2500000000;
  5837057 # 10000000000; 6194777 # 10000000000; (-154041) # 2500000000; 1134939 # 5000000000; (-2463349) # 10000000000; 791759 # 5000000000;
  (-3870723) # 10000000000; 949687 # 5000000000; (-931693) # 2500000000; 31491 # 312500000; (-152039) # 5000000000; 1043 # 50000000;
  (-530323) # 10000000000; 1912691 # 10000000000; (-1120443) # 10000000000; 2569079 # 10000000000; 88879 # 312500000; (-194559) # 1000000000;
  4938231 # 10000000000; 24083 # 1250000000; 36389 # 1250000000; 4642887 # 10000000000; (-43133) # 500000000; 600969 # 1250000000;
  (-92087) # 2500000000; 2665639 # 10000000000; 26653 # 156250000; 1255597 # 5000000000; 249431 # 10000000000; 62277 # 250000000;
  223281 # 1250000000; 295491 # 1250000000; 758039 # 10000000000; 603917 # 10000000000; 706573 # 2500000000; 22729 # 2500000000;
  1405023 # 5000000000; 6689 # 100000000; 257177 # 5000000000; 3273683 # 10000000000; (-321817) # 2000000000; 3162659 # 10000000000;
  958449 # 10000000000; (-124557) # 1250000000; 3027373 # 10000000000; 221741 # 2500000000; (-143807) # 2500000000; 28279 # 200000000;
  229857 # 2500000000; 908337 # 10000000000; 723611 # 5000000000; (-348613) # 5000000000; 1341681 # 10000000000; 665251 # 5000000000;
  (-663691) # 10000000000; 66213 # 500000000; 27333 # 200000000; (-790861) # 10000000000; 898397 # 5000000000; (-198157) # 5000000000;
  (-105769) # 5000000000; 1242467 # 10000000000; 1241671 # 10000000000; (-4183) # 200000000; (-405069) # 10000000000; 1829427 # 10000000000;
  (-713) # 7812500; 1821133 # 10000000000; (-92973) # 2500000000; (-166783) # 5000000000; 853077 # 5000000000; (-491051) # 10000000000;
  258049 # 10000000000; (-541147) # 10000000000; 953269 # 5000000000; (-217001) # 2000000000; 608371 # 2500000000; (-2648929) # 10000000000;
  270279 # 1250000000; 0 # 1; (-270279) # 1250000000
].
Definition cert_2003_k_H : list Q := [
  (-347757) # 4000000000; (-2981) # 1250000000; 1667241 # 10000000000; 2677443 # 5000000000; 268101 # 5000000000; 656269 # 625000000;
  7230987 # 10000000000; 7075749 # 10000000000; 1963423 # 5000000000; 937161 # 2500000000; 6278579 # 10000000000; 4977041 # 10000000000;
  5013257 # 10000000000; 136993 # 1000000000; 753511 # 5000000000; (-2598017) # 10000000000; (-157973) # 500000000; (-60259) # 625000000;
  (-1245991) # 2500000000; (-1) # 4000; (-4009) # 2500000000
].
Definition cert_2003_k_V : list Q := [
  3740183 # 20000000000; 1393523 # 10000000000; 220193 # 5000000000; 2172467 # 5000000000; 1524813 # 5000000000; 7456563 # 10000000000;
  3802749 # 5000000000; 1780361 # 2500000000; 704971 # 2000000000; 3087597 # 10000000000; 4044757 # 10000000000; 2486687 # 5000000000;
  1215437 # 2500000000; 1979633 # 10000000000; 1619719 # 10000000000; (-1258511) # 10000000000; (-2434327) # 10000000000; (-1604179) # 10000000000;
  (-629791) # 2000000000; (-1) # 3125; (-650209) # 2000000000
].
Definition cert_2003_alpha_H : list Q := [
  134846807 # 10000000000; 86855851 # 5000000000; 62860373 # 2500000000; (-744477671) # 10000000000; (-103008479) # 5000000000; (-85727249) # 5000000000;
  592993 # 2500000000; 41966611 # 10000000000; 28529981 # 10000000000; 704819 # 2000000000; (-1826361) # 10000000000; (-1018653) # 10000000000;
  275243 # 2500000000; 282953 # 2000000000; 2839967 # 10000000000; 325073 # 2000000000; 18799 # 125000000; 151791 # 2000000000;
  860261 # 10000000000; 3 # 50000; 339739 # 10000000000
].
Definition cert_2003_alpha_V : list Q := [
  237725689 # 10000000000; 112215711 # 5000000000; 24730361 # 1250000000; (-222901487) # 5000000000; (-600867933) # 10000000000; (-90725293) # 10000000000;
  (-57390153) # 10000000000; 25142953 # 5000000000; 957513 # 312500000; 8579127 # 10000000000; 1121539 # 5000000000; (-5551439) # 10000000000;
  3162677 # 10000000000; 100731 # 10000000000; 1234397 # 10000000000; 2161679 # 10000000000; 259553 # 2000000000; 447263 # 10000000000;
  34787 # 312500000; 1 # 20000; (-3537) # 312500000
].
