(** GENERATED by tools/gen_tables.py from UnicodeData.txt, GraphemeBreakProperty.txt
    and CompositionExclusions.txt (Unicode 9.0.0).  Specification side. *)
From Coq Require Import List ZArith.
Import ListNotations.
From Verif Require Import DataTables.
Open Scope Z_scope.

(** Formatting tag of a decomposition mapping (UnicodeData.txt field 5). *)
Inductive dtag : Set := Tag_noBreak | Tag_compat | Tag_super | Tag_fraction | Canonical | Tag_sub | Tag_font | Tag_circle | Tag_wide | Tag_vertical | Tag_square | Tag_isolated | Tag_final | Tag_initial | Tag_medial | Tag_small | Tag_narrow.

(** (codepoint, Canonical_Combining_Class) for each line of UnicodeData.txt whose field 3 is not 0. *)
Definition ucd_ccc : list (Z * Z) := [
(768,230);
(769,230);
(770,230);
(771,230);
(772,230);
(773,230);
(774,230);
(775,230);
(776,230);
(777,230);
(778,230);
(779,230);
(780,230);
(781,230);
(782,230);
(783,230);
(784,230);
(785,230);
(786,230);
(787,230);
(788,230);
(789,232);
(790,220);
(791,220);
(792,220);
(793,220);
(794,232);
(795,216);
(796,220);
(797,220);
(798,220);
(799,220);
(800,220);
(801,202);
(802,202);
(803,220);
(804,220);
(805,220);
(806,220);
(807,202);
(808,202);
(809,220);
(810,220);
(811,220);
(812,220);
(813,220);
(814,220);
(815,220);
(816,220);
(817,220);
(818,220);
(819,220);
(820,1);
(821,1);
(822,1);
(823,1);
(824,1);
(825,220);
(826,220);
(827,220);
(828,220);
(829,230);
(830,230);
(831,230);
(832,230);
(833,230);
(834,230);
(835,230);
(836,230);
(837,240);
(838,230);
(839,220);
(840,220);
(841,220);
(842,230);
(843,230);
(844,230);
(845,220);
(846,220);
(848,230);
(849,230);
(850,230);
(851,220);
(852,220);
(853,220);
(854,220);
(855,230);
(856,232);
(857,220);
(858,220);
(859,230);
(860,233);
(861,234);
(862,234);
(863,233);
(864,234);
(865,234);
(866,233);
(867,230);
(868,230);
(869,230);
(870,230);
(871,230);
(872,230);
(873,230);
(874,230);
(875,230);
(876,230);
(877,230);
(878,230);
(879,230);
(1155,230);
(1156,230);
(1157,230);
(1158,230);
(1159,230);
(1425,220);
(1426,230);
(1427,230);
(1428,230);
(1429,230);
(1430,220);
(1431,230);
(1432,230);
(1433,230);
(1434,222);
(1435,220);
(1436,230);
(1437,230);
(1438,230);
(1439,230);
(1440,230);
(1441,230);
(1442,220);
(1443,220);
(1444,220);
(1445,220);
(1446,220);
(1447,220);
(1448,230);
(1449,230);
(1450,220);
(1451,230);
(1452,230);
(1453,222);
(1454,228);
(1455,230);
(1456,10);
(1457,11);
(1458,12);
(1459,13);
(1460,14);
(1461,15);
(1462,16);
(1463,17);
(1464,18);
(1465,19);
(1466,19);
(1467,20);
(1468,21);
(1469,22);
(1471,23);
(1473,24);
(1474,25);
(1476,230);
(1477,220);
(1479,18);
(1552,230);
(1553,230);
(1554,230);
(1555,230);
(1556,230);
(1557,230);
(1558,230);
(1559,230);
(1560,30);
(1561,31);
(1562,32);
(1611,27);
(1612,28);
(1613,29);
(1614,30);
(1615,31);
(1616,32);
(1617,33);
(1618,34);
(1619,230);
(1620,230);
(1621,220);
(1622,220);
(1623,230);
(1624,230);
(1625,230);
(1626,230);
(1627,230);
(1628,220);
(1629,230);
(1630,230);
(1631,220);
(1648,35);
(1750,230);
(1751,230);
(1752,230);
(1753,230);
(1754,230);
(1755,230);
(1756,230);
(1759,230);
(1760,230);
(1761,230);
(1762,230);
(1763,220);
(1764,230);
(1767,230);
(1768,230);
(1770,220);
(1771,230);
(1772,230);
(1773,220);
(1809,36);
(1840,230);
(1841,220);
(1842,230);
(1843,230);
(1844,220);
(1845,230);
(1846,230);
(1847,220);
(1848,220);
(1849,220);
(1850,230);
(1851,220);
(1852,220);
(1853,230);
(1854,220);
(1855,230);
(1856,230);
(1857,230);
(1858,220);
(1859,230);
(1860,220);
(1861,230);
(1862,220);
(1863,230);
(1864,220);
(1865,230);
(1866,230);
(2027,230);
(2028,230);
(2029,230);
(2030,230);
(2031,230);
(2032,230);
(2033,230);
(2034,220);
(2035,230);
(2070,230);
(2071,230);
(2072,230);
(2073,230);
(2075,230);
(2076,230);
(2077,230);
(2078,230);
(2079,230);
(2080,230);
(2081,230);
(2082,230);
(2083,230);
(2085,230);
(2086,230);
(2087,230);
(2089,230);
(2090,230);
(2091,230);
(2092,230);
(2093,230);
(2137,220);
(2138,220);
(2139,220);
(2260,230);
(2261,230);
(2262,230);
(2263,230);
(2264,230);
(2265,230);
(2266,230);
(2267,230);
(2268,230);
(2269,230);
(2270,230);
(2271,230);
(2272,230);
(2273,230);
(2275,220);
(2276,230);
(2277,230);
(2278,220);
(2279,230);
(2280,230);
(2281,220);
(2282,230);
(2283,230);
(2284,230);
(2285,220);
(2286,220);
(2287,220);
(2288,27);
(2289,28);
(2290,29);
(2291,230);
(2292,230);
(2293,230);
(2294,220);
(2295,230);
(2296,230);
(2297,220);
(2298,220);
(2299,230);
(2300,230);
(2301,230);
(2302,230);
(2303,230);
(2364,7);
(2381,9);
(2385,230);
(2386,220);
(2387,230);
(2388,230);
(2492,7);
(2509,9);
(2620,7);
(2637,9);
(2748,7);
(2765,9);
(2876,7);
(2893,9);
(3021,9);
(3149,9);
(3157,84);
(3158,91);
(3260,7);
(3277,9);
(3405,9);
(3530,9);
(3640,103);
(3641,103);
(3642,9);
(3656,107);
(3657,107);
(3658,107);
(3659,107);
(3768,118);
(3769,118);
(3784,122);
(3785,122);
(3786,122);
(3787,122);
(3864,220);
(3865,220);
(3893,220);
(3895,220);
(3897,216);
(3953,129);
(3954,130);
(3956,132);
(3962,130);
(3963,130);
(3964,130);
(3965,130);
(3968,130);
(3970,230);
(3971,230);
(3972,9);
(3974,230);
(3975,230);
(4038,220);
(4151,7);
(4153,9);
(4154,9);
(4237,220);
(4957,230);
(4958,230);
(4959,230);
(5908,9);
(5940,9);
(6098,9);
(6109,230);
(6313,228);
(6457,222);
(6458,230);
(6459,220);
(6679,230);
(6680,220);
(6752,9);
(6773,230);
(6774,230);
(6775,230);
(6776,230);
(6777,230);
(6778,230);
(6779,230);
(6780,230);
(6783,220);
(6832,230);
(6833,230);
(6834,230);
(6835,230);
(6836,230);
(6837,220);
(6838,220);
(6839,220);
(6840,220);
(6841,220);
(6842,220);
(6843,230);
(6844,230);
(6845,220);
(6964,7);
(6980,9);
(7019,230);
(7020,220);
(7021,230);
(7022,230);
(7023,230);
(7024,230);
(7025,230);
(7026,230);
(7027,230);
(7082,9);
(7083,9);
(7142,7);
(7154,9);
(7155,9);
(7223,7);
(7376,230);
(7377,230);
(7378,230);
(7380,1);
(7381,220);
(7382,220);
(7383,220);
(7384,220);
(7385,220);
(7386,230);
(7387,230);
(7388,220);
(7389,220);
(7390,220);
(7391,220);
(7392,230);
(7394,1);
(7395,1);
(7396,1);
(7397,1);
(7398,1);
(7399,1);
(7400,1);
(7405,220);
(7412,230);
(7416,230);
(7417,230);
(7616,230);
(7617,230);
(7618,220);
(7619,230);
(7620,230);
(7621,230);
(7622,230);
(7623,230);
(7624,230);
(7625,230);
(7626,220);
(7627,230);
(7628,230);
(7629,234);
(7630,214);
(7631,220);
(7632,202);
(7633,230);
(7634,230);
(7635,230);
(7636,230);
(7637,230);
(7638,230);
(7639,230);
(7640,230);
(7641,230);
(7642,230);
(7643,230);
(7644,230);
(7645,230);
(7646,230);
(7647,230);
(7648,230);
(7649,230);
(7650,230);
(7651,230);
(7652,230);
(7653,230);
(7654,230);
(7655,230);
(7656,230);
(7657,230);
(7658,230);
(7659,230);
(7660,230);
(7661,230);
(7662,230);
(7663,230);
(7664,230);
(7665,230);
(7666,230);
(7667,230);
(7668,230);
(7669,230);
(7675,230);
(7676,233);
(7677,220);
(7678,230);
(7679,220);
(8400,230);
(8401,230);
(8402,1);
(8403,1);
(8404,230);
(8405,230);
(8406,230);
(8407,230);
(8408,1);
(8409,1);
(8410,1);
(8411,230);
(8412,230);
(8417,230);
(8421,1);
(8422,1);
(8423,230);
(8424,220);
(8425,230);
(8426,1);
(8427,1);
(8428,220);
(8429,220);
(8430,220);
(8431,220);
(8432,230);
(11503,230);
(11504,230);
(11505,230);
(11647,9);
(11744,230);
(11745,230);
(11746,230);
(11747,230);
(11748,230);
(11749,230);
(11750,230);
(11751,230);
(11752,230);
(11753,230);
(11754,230);
(11755,230);
(11756,230);
(11757,230);
(11758,230);
(11759,230);
(11760,230);
(11761,230);
(11762,230);
(11763,230);
(11764,230);
(11765,230);
(11766,230);
(11767,230);
(11768,230);
(11769,230);
(11770,230);
(11771,230);
(11772,230);
(11773,230);
(11774,230);
(11775,230);
(12330,218);
(12331,228);
(12332,232);
(12333,222);
(12334,224);
(12335,224);
(12441,8);
(12442,8);
(42607,230);
(42612,230);
(42613,230);
(42614,230);
(42615,230);
(42616,230);
(42617,230);
(42618,230);
(42619,230);
(42620,230);
(42621,230);
(42654,230);
(42655,230);
(42736,230);
(42737,230);
(43014,9);
(43204,9);
(43232,230);
(43233,230);
(43234,230);
(43235,230);
(43236,230);
(43237,230);
(43238,230);
(43239,230);
(43240,230);
(43241,230);
(43242,230);
(43243,230);
(43244,230);
(43245,230);
(43246,230);
(43247,230);
(43248,230);
(43249,230);
(43307,220);
(43308,220);
(43309,220);
(43347,9);
(43443,7);
(43456,9);
(43696,230);
(43698,230);
(43699,230);
(43700,220);
(43703,230);
(43704,230);
(43710,230);
(43711,230);
(43713,230);
(43766,9);
(44013,9);
(64286,26);
(65056,230);
(65057,230);
(65058,230);
(65059,230);
(65060,230);
(65061,230);
(65062,230);
(65063,220);
(65064,220);
(65065,220);
(65066,220);
(65067,220);
(65068,220);
(65069,220);
(65070,230);
(65071,230);
(66045,220);
(66272,220);
(66422,230);
(66423,230);
(66424,230);
(66425,230);
(66426,230);
(68109,220);
(68111,230);
(68152,230);
(68153,1);
(68154,220);
(68159,9);
(68325,230);
(68326,220);
(69702,9);
(69759,9);
(69817,9);
(69818,7);
(69888,230);
(69889,230);
(69890,230);
(69939,9);
(69940,9);
(70003,7);
(70080,9);
(70090,7);
(70197,9);
(70198,7);
(70377,7);
(70378,9);
(70460,7);
(70477,9);
(70502,230);
(70503,230);
(70504,230);
(70505,230);
(70506,230);
(70507,230);
(70508,230);
(70512,230);
(70513,230);
(70514,230);
(70515,230);
(70516,230);
(70722,9);
(70726,7);
(70850,9);
(70851,7);
(71103,9);
(71104,7);
(71231,9);
(71350,9);
(71351,7);
(71467,9);
(72767,9);
(92912,1);
(92913,1);
(92914,1);
(92915,1);
(92916,1);
(92976,230);
(92977,230);
(92978,230);
(92979,230);
(92980,230);
(92981,230);
(92982,230);
(113822,1);
(119141,216);
(119142,216);
(119143,1);
(119144,1);
(119145,1);
(119149,226);
(119150,216);
(119151,216);
(119152,216);
(119153,216);
(119154,216);
(119163,220);
(119164,220);
(119165,220);
(119166,220);
(119167,220);
(119168,220);
(119169,220);
(119170,220);
(119173,230);
(119174,230);
(119175,230);
(119176,230);
(119177,230);
(119178,220);
(119179,220);
(119210,230);
(119211,230);
(119212,230);
(119213,230);
(119362,230);
(119363,230);
(119364,230);
(122880,230);
(122881,230);
(122882,230);
(122883,230);
(122884,230);
(122885,230);
(122886,230);
(122888,230);
(122889,230);
(122890,230);
(122891,230);
(122892,230);
(122893,230);
(122894,230);
(122895,230);
(122896,230);
(122897,230);
(122898,230);
(122899,230);
(122900,230);
(122901,230);
(122902,230);
(122903,230);
(122904,230);
(122907,230);
(122908,230);
(122909,230);
(122910,230);
(122911,230);
(122912,230);
(122913,230);
(122915,230);
(122916,230);
(122918,230);
(122919,230);
(122920,230);
(122921,230);
(122922,230);
(125136,220);
(125137,220);
(125138,220);
(125139,220);
(125140,220);
(125141,220);
(125142,220);
(125252,230);
(125253,230);
(125254,230);
(125255,230);
(125256,230);
(125257,230);
(125258,7)
].

(** (codepoint, tag, mapping) for each line of UnicodeData.txt whose field 5 is not empty. *)
Definition ucd_decomposition : list (Z * dtag * list Z) := [
(160,Tag_noBreak,[32]);
(168,Tag_compat,[32;776]);
(170,Tag_super,[97]);
(175,Tag_compat,[32;772]);
(178,Tag_super,[50]);
(179,Tag_super,[51]);
(180,Tag_compat,[32;769]);
(181,Tag_compat,[956]);
(184,Tag_compat,[32;807]);
(185,Tag_super,[49]);
(186,Tag_super,[111]);
(188,Tag_fraction,[49;8260;52]);
(189,Tag_fraction,[49;8260;50]);
(190,Tag_fraction,[51;8260;52]);
(192,Canonical,[65;768]);
(193,Canonical,[65;769]);
(194,Canonical,[65;770]);
(195,Canonical,[65;771]);
(196,Canonical,[65;776]);
(197,Canonical,[65;778]);
(199,Canonical,[67;807]);
(200,Canonical,[69;768]);
(201,Canonical,[69;769]);
(202,Canonical,[69;770]);
(203,Canonical,[69;776]);
(204,Canonical,[73;768]);
(205,Canonical,[73;769]);
(206,Canonical,[73;770]);
(207,Canonical,[73;776]);
(209,Canonical,[78;771]);
(210,Canonical,[79;768]);
(211,Canonical,[79;769]);
(212,Canonical,[79;770]);
(213,Canonical,[79;771]);
(214,Canonical,[79;776]);
(217,Canonical,[85;768]);
(218,Canonical,[85;769]);
(219,Canonical,[85;770]);
(220,Canonical,[85;776]);
(221,Canonical,[89;769]);
(224,Canonical,[97;768]);
(225,Canonical,[97;769]);
(226,Canonical,[97;770]);
(227,Canonical,[97;771]);
(228,Canonical,[97;776]);
(229,Canonical,[97;778]);
(231,Canonical,[99;807]);
(232,Canonical,[101;768]);
(233,Canonical,[101;769]);
(234,Canonical,[101;770]);
(235,Canonical,[101;776]);
(236,Canonical,[105;768]);
(237,Canonical,[105;769]);
(238,Canonical,[105;770]);
(239,Canonical,[105;776]);
(241,Canonical,[110;771]);
(242,Canonical,[111;768]);
(243,Canonical,[111;769]);
(244,Canonical,[111;770]);
(245,Canonical,[111;771]);
(246,Canonical,[111;776]);
(249,Canonical,[117;768]);
(250,Canonical,[117;769]);
(251,Canonical,[117;770]);
(252,Canonical,[117;776]);
(253,Canonical,[121;769]);
(255,Canonical,[121;776]);
(256,Canonical,[65;772]);
(257,Canonical,[97;772]);
(258,Canonical,[65;774]);
(259,Canonical,[97;774]);
(260,Canonical,[65;808]);
(261,Canonical,[97;808]);
(262,Canonical,[67;769]);
(263,Canonical,[99;769]);
(264,Canonical,[67;770]);
(265,Canonical,[99;770]);
(266,Canonical,[67;775]);
(267,Canonical,[99;775]);
(268,Canonical,[67;780]);
(269,Canonical,[99;780]);
(270,Canonical,[68;780]);
(271,Canonical,[100;780]);
(274,Canonical,[69;772]);
(275,Canonical,[101;772]);
(276,Canonical,[69;774]);
(277,Canonical,[101;774]);
(278,Canonical,[69;775]);
(279,Canonical,[101;775]);
(280,Canonical,[69;808]);
(281,Canonical,[101;808]);
(282,Canonical,[69;780]);
(283,Canonical,[101;780]);
(284,Canonical,[71;770]);
(285,Canonical,[103;770]);
(286,Canonical,[71;774]);
(287,Canonical,[103;774]);
(288,Canonical,[71;775]);
(289,Canonical,[103;775]);
(290,Canonical,[71;807]);
(291,Canonical,[103;807]);
(292,Canonical,[72;770]);
(293,Canonical,[104;770]);
(296,Canonical,[73;771]);
(297,Canonical,[105;771]);
(298,Canonical,[73;772]);
(299,Canonical,[105;772]);
(300,Canonical,[73;774]);
(301,Canonical,[105;774]);
(302,Canonical,[73;808]);
(303,Canonical,[105;808]);
(304,Canonical,[73;775]);
(306,Tag_compat,[73;74]);
(307,Tag_compat,[105;106]);
(308,Canonical,[74;770]);
(309,Canonical,[106;770]);
(310,Canonical,[75;807]);
(311,Canonical,[107;807]);
(313,Canonical,[76;769]);
(314,Canonical,[108;769]);
(315,Canonical,[76;807]);
(316,Canonical,[108;807]);
(317,Canonical,[76;780]);
(318,Canonical,[108;780]);
(319,Tag_compat,[76;183]);
(320,Tag_compat,[108;183]);
(323,Canonical,[78;769]);
(324,Canonical,[110;769]);
(325,Canonical,[78;807]);
(326,Canonical,[110;807]);
(327,Canonical,[78;780]);
(328,Canonical,[110;780]);
(329,Tag_compat,[700;110]);
(332,Canonical,[79;772]);
(333,Canonical,[111;772]);
(334,Canonical,[79;774]);
(335,Canonical,[111;774]);
(336,Canonical,[79;779]);
(337,Canonical,[111;779]);
(340,Canonical,[82;769]);
(341,Canonical,[114;769]);
(342,Canonical,[82;807]);
(343,Canonical,[114;807]);
(344,Canonical,[82;780]);
(345,Canonical,[114;780]);
(346,Canonical,[83;769]);
(347,Canonical,[115;769]);
(348,Canonical,[83;770]);
(349,Canonical,[115;770]);
(350,Canonical,[83;807]);
(351,Canonical,[115;807]);
(352,Canonical,[83;780]);
(353,Canonical,[115;780]);
(354,Canonical,[84;807]);
(355,Canonical,[116;807]);
(356,Canonical,[84;780]);
(357,Canonical,[116;780]);
(360,Canonical,[85;771]);
(361,Canonical,[117;771]);
(362,Canonical,[85;772]);
(363,Canonical,[117;772]);
(364,Canonical,[85;774]);
(365,Canonical,[117;774]);
(366,Canonical,[85;778]);
(367,Canonical,[117;778]);
(368,Canonical,[85;779]);
(369,Canonical,[117;779]);
(370,Canonical,[85;808]);
(371,Canonical,[117;808]);
(372,Canonical,[87;770]);
(373,Canonical,[119;770]);
(374,Canonical,[89;770]);
(375,Canonical,[121;770]);
(376,Canonical,[89;776]);
(377,Canonical,[90;769]);
(378,Canonical,[122;769]);
(379,Canonical,[90;775]);
(380,Canonical,[122;775]);
(381,Canonical,[90;780]);
(382,Canonical,[122;780]);
(383,Tag_compat,[115]);
(416,Canonical,[79;795]);
(417,Canonical,[111;795]);
(431,Canonical,[85;795]);
(432,Canonical,[117;795]);
(452,Tag_compat,[68;381]);
(453,Tag_compat,[68;382]);
(454,Tag_compat,[100;382]);
(455,Tag_compat,[76;74]);
(456,Tag_compat,[76;106]);
(457,Tag_compat,[108;106]);
(458,Tag_compat,[78;74]);
(459,Tag_compat,[78;106]);
(460,Tag_compat,[110;106]);
(461,Canonical,[65;780]);
(462,Canonical,[97;780]);
(463,Canonical,[73;780]);
(464,Canonical,[105;780]);
(465,Canonical,[79;780]);
(466,Canonical,[111;780]);
(467,Canonical,[85;780]);
(468,Canonical,[117;780]);
(469,Canonical,[220;772]);
(470,Canonical,[252;772]);
(471,Canonical,[220;769]);
(472,Canonical,[252;769]);
(473,Canonical,[220;780]);
(474,Canonical,[252;780]);
(475,Canonical,[220;768]);
(476,Canonical,[252;768]);
(478,Canonical,[196;772]);
(479,Canonical,[228;772]);
(480,Canonical,[550;772]);
(481,Canonical,[551;772]);
(482,Canonical,[198;772]);
(483,Canonical,[230;772]);
(486,Canonical,[71;780]);
(487,Canonical,[103;780]);
(488,Canonical,[75;780]);
(489,Canonical,[107;780]);
(490,Canonical,[79;808]);
(491,Canonical,[111;808]);
(492,Canonical,[490;772]);
(493,Canonical,[491;772]);
(494,Canonical,[439;780]);
(495,Canonical,[658;780]);
(496,Canonical,[106;780]);
(497,Tag_compat,[68;90]);
(498,Tag_compat,[68;122]);
(499,Tag_compat,[100;122]);
(500,Canonical,[71;769]);
(501,Canonical,[103;769]);
(504,Canonical,[78;768]);
(505,Canonical,[110;768]);
(506,Canonical,[197;769]);
(507,Canonical,[229;769]);
(508,Canonical,[198;769]);
(509,Canonical,[230;769]);
(510,Canonical,[216;769]);
(511,Canonical,[248;769]);
(512,Canonical,[65;783]);
(513,Canonical,[97;783]);
(514,Canonical,[65;785]);
(515,Canonical,[97;785]);
(516,Canonical,[69;783]);
(517,Canonical,[101;783]);
(518,Canonical,[69;785]);
(519,Canonical,[101;785]);
(520,Canonical,[73;783]);
(521,Canonical,[105;783]);
(522,Canonical,[73;785]);
(523,Canonical,[105;785]);
(524,Canonical,[79;783]);
(525,Canonical,[111;783]);
(526,Canonical,[79;785]);
(527,Canonical,[111;785]);
(528,Canonical,[82;783]);
(529,Canonical,[114;783]);
(530,Canonical,[82;785]);
(531,Canonical,[114;785]);
(532,Canonical,[85;783]);
(533,Canonical,[117;783]);
(534,Canonical,[85;785]);
(535,Canonical,[117;785]);
(536,Canonical,[83;806]);
(537,Canonical,[115;806]);
(538,Canonical,[84;806]);
(539,Canonical,[116;806]);
(542,Canonical,[72;780]);
(543,Canonical,[104;780]);
(550,Canonical,[65;775]);
(551,Canonical,[97;775]);
(552,Canonical,[69;807]);
(553,Canonical,[101;807]);
(554,Canonical,[214;772]);
(555,Canonical,[246;772]);
(556,Canonical,[213;772]);
(557,Canonical,[245;772]);
(558,Canonical,[79;775]);
(559,Canonical,[111;775]);
(560,Canonical,[558;772]);
(561,Canonical,[559;772]);
(562,Canonical,[89;772]);
(563,Canonical,[121;772]);
(688,Tag_super,[104]);
(689,Tag_super,[614]);
(690,Tag_super,[106]);
(691,Tag_super,[114]);
(692,Tag_super,[633]);
(693,Tag_super,[635]);
(694,Tag_super,[641]);
(695,Tag_super,[119]);
(696,Tag_super,[121]);
(728,Tag_compat,[32;774]);
(729,Tag_compat,[32;775]);
(730,Tag_compat,[32;778]);
(731,Tag_compat,[32;808]);
(732,Tag_compat,[32;771]);
(733,Tag_compat,[32;779]);
(736,Tag_super,[611]);
(737,Tag_super,[108]);
(738,Tag_super,[115]);
(739,Tag_super,[120]);
(740,Tag_super,[661]);
(832,Canonical,[768]);
(833,Canonical,[769]);
(835,Canonical,[787]);
(836,Canonical,[776;769]);
(884,Canonical,[697]);
(890,Tag_compat,[32;837]);
(894,Canonical,[59]);
(900,Tag_compat,[32;769]);
(901,Canonical,[168;769]);
(902,Canonical,[913;769]);
(903,Canonical,[183]);
(904,Canonical,[917;769]);
(905,Canonical,[919;769]);
(906,Canonical,[921;769]);
(908,Canonical,[927;769]);
(910,Canonical,[933;769]);
(911,Canonical,[937;769]);
(912,Canonical,[970;769]);
(938,Canonical,[921;776]);
(939,Canonical,[933;776]);
(940,Canonical,[945;769]);
(941,Canonical,[949;769]);
(942,Canonical,[951;769]);
(943,Canonical,[953;769]);
(944,Canonical,[971;769]);
(970,Canonical,[953;776]);
(971,Canonical,[965;776]);
(972,Canonical,[959;769]);
(973,Canonical,[965;769]);
(974,Canonical,[969;769]);
(976,Tag_compat,[946]);
(977,Tag_compat,[952]);
(978,Tag_compat,[933]);
(979,Canonical,[978;769]);
(980,Canonical,[978;776]);
(981,Tag_compat,[966]);
(982,Tag_compat,[960]);
(1008,Tag_compat,[954]);
(1009,Tag_compat,[961]);
(1010,Tag_compat,[962]);
(1012,Tag_compat,[920]);
(1013,Tag_compat,[949]);
(1017,Tag_compat,[931]);
(1024,Canonical,[1045;768]);
(1025,Canonical,[1045;776]);
(1027,Canonical,[1043;769]);
(1031,Canonical,[1030;776]);
(1036,Canonical,[1050;769]);
(1037,Canonical,[1048;768]);
(1038,Canonical,[1059;774]);
(1049,Canonical,[1048;774]);
(1081,Canonical,[1080;774]);
(1104,Canonical,[1077;768]);
(1105,Canonical,[1077;776]);
(1107,Canonical,[1075;769]);
(1111,Canonical,[1110;776]);
(1116,Canonical,[1082;769]);
(1117,Canonical,[1080;768]);
(1118,Canonical,[1091;774]);
(1142,Canonical,[1140;783]);
(1143,Canonical,[1141;783]);
(1217,Canonical,[1046;774]);
(1218,Canonical,[1078;774]);
(1232,Canonical,[1040;774]);
(1233,Canonical,[1072;774]);
(1234,Canonical,[1040;776]);
(1235,Canonical,[1072;776]);
(1238,Canonical,[1045;774]);
(1239,Canonical,[1077;774]);
(1242,Canonical,[1240;776]);
(1243,Canonical,[1241;776]);
(1244,Canonical,[1046;776]);
(1245,Canonical,[1078;776]);
(1246,Canonical,[1047;776]);
(1247,Canonical,[1079;776]);
(1250,Canonical,[1048;772]);
(1251,Canonical,[1080;772]);
(1252,Canonical,[1048;776]);
(1253,Canonical,[1080;776]);
(1254,Canonical,[1054;776]);
(1255,Canonical,[1086;776]);
(1258,Canonical,[1256;776]);
(1259,Canonical,[1257;776]);
(1260,Canonical,[1069;776]);
(1261,Canonical,[1101;776]);
(1262,Canonical,[1059;772]);
(1263,Canonical,[1091;772]);
(1264,Canonical,[1059;776]);
(1265,Canonical,[1091;776]);
(1266,Canonical,[1059;779]);
(1267,Canonical,[1091;779]);
(1268,Canonical,[1063;776]);
(1269,Canonical,[1095;776]);
(1272,Canonical,[1067;776]);
(1273,Canonical,[1099;776]);
(1415,Tag_compat,[1381;1410]);
(1570,Canonical,[1575;1619]);
(1571,Canonical,[1575;1620]);
(1572,Canonical,[1608;1620]);
(1573,Canonical,[1575;1621]);
(1574,Canonical,[1610;1620]);
(1653,Tag_compat,[1575;1652]);
(1654,Tag_compat,[1608;1652]);
(1655,Tag_compat,[1735;1652]);
(1656,Tag_compat,[1610;1652]);
(1728,Canonical,[1749;1620]);
(1730,Canonical,[1729;1620]);
(1747,Canonical,[1746;1620]);
(2345,Canonical,[2344;2364]);
(2353,Canonical,[2352;2364]);
(2356,Canonical,[2355;2364]);
(2392,Canonical,[2325;2364]);
(2393,Canonical,[2326;2364]);
(2394,Canonical,[2327;2364]);
(2395,Canonical,[2332;2364]);
(2396,Canonical,[2337;2364]);
(2397,Canonical,[2338;2364]);
(2398,Canonical,[2347;2364]);
(2399,Canonical,[2351;2364]);
(2507,Canonical,[2503;2494]);
(2508,Canonical,[2503;2519]);
(2524,Canonical,[2465;2492]);
(2525,Canonical,[2466;2492]);
(2527,Canonical,[2479;2492]);
(2611,Canonical,[2610;2620]);
(2614,Canonical,[2616;2620]);
(2649,Canonical,[2582;2620]);
(2650,Canonical,[2583;2620]);
(2651,Canonical,[2588;2620]);
(2654,Canonical,[2603;2620]);
(2888,Canonical,[2887;2902]);
(2891,Canonical,[2887;2878]);
(2892,Canonical,[2887;2903]);
(2908,Canonical,[2849;2876]);
(2909,Canonical,[2850;2876]);
(2964,Canonical,[2962;3031]);
(3018,Canonical,[3014;3006]);
(3019,Canonical,[3015;3006]);
(3020,Canonical,[3014;3031]);
(3144,Canonical,[3142;3158]);
(3264,Canonical,[3263;3285]);
(3271,Canonical,[3270;3285]);
(3272,Canonical,[3270;3286]);
(3274,Canonical,[3270;3266]);
(3275,Canonical,[3274;3285]);
(3402,Canonical,[3398;3390]);
(3403,Canonical,[3399;3390]);
(3404,Canonical,[3398;3415]);
(3546,Canonical,[3545;3530]);
(3548,Canonical,[3545;3535]);
(3549,Canonical,[3548;3530]);
(3550,Canonical,[3545;3551]);
(3635,Tag_compat,[3661;3634]);
(3763,Tag_compat,[3789;3762]);
(3804,Tag_compat,[3755;3737]);
(3805,Tag_compat,[3755;3745]);
(3852,Tag_noBreak,[3851]);
(3907,Canonical,[3906;4023]);
(3917,Canonical,[3916;4023]);
(3922,Canonical,[3921;4023]);
(3927,Canonical,[3926;4023]);
(3932,Canonical,[3931;4023]);
(3945,Canonical,[3904;4021]);
(3955,Canonical,[3953;3954]);
(3957,Canonical,[3953;3956]);
(3958,Canonical,[4018;3968]);
(3959,Tag_compat,[4018;3969]);
(3960,Canonical,[4019;3968]);
(3961,Tag_compat,[4019;3969]);
(3969,Canonical,[3953;3968]);
(3987,Canonical,[3986;4023]);
(3997,Canonical,[3996;4023]);
(4002,Canonical,[4001;4023]);
(4007,Canonical,[4006;4023]);
(4012,Canonical,[4011;4023]);
(4025,Canonical,[3984;4021]);
(4134,Canonical,[4133;4142]);
(4348,Tag_super,[4316]);
(6918,Canonical,[6917;6965]);
(6920,Canonical,[6919;6965]);
(6922,Canonical,[6921;6965]);
(6924,Canonical,[6923;6965]);
(6926,Canonical,[6925;6965]);
(6930,Canonical,[6929;6965]);
(6971,Canonical,[6970;6965]);
(6973,Canonical,[6972;6965]);
(6976,Canonical,[6974;6965]);
(6977,Canonical,[6975;6965]);
(6979,Canonical,[6978;6965]);
(7468,Tag_super,[65]);
(7469,Tag_super,[198]);
(7470,Tag_super,[66]);
(7472,Tag_super,[68]);
(7473,Tag_super,[69]);
(7474,Tag_super,[398]);
(7475,Tag_super,[71]);
(7476,Tag_super,[72]);
(7477,Tag_super,[73]);
(7478,Tag_super,[74]);
(7479,Tag_super,[75]);
(7480,Tag_super,[76]);
(7481,Tag_super,[77]);
(7482,Tag_super,[78]);
(7484,Tag_super,[79]);
(7485,Tag_super,[546]);
(7486,Tag_super,[80]);
(7487,Tag_super,[82]);
(7488,Tag_super,[84]);
(7489,Tag_super,[85]);
(7490,Tag_super,[87]);
(7491,Tag_super,[97]);
(7492,Tag_super,[592]);
(7493,Tag_super,[593]);
(7494,Tag_super,[7426]);
(7495,Tag_super,[98]);
(7496,Tag_super,[100]);
(7497,Tag_super,[101]);
(7498,Tag_super,[601]);
(7499,Tag_super,[603]);
(7500,Tag_super,[604]);
(7501,Tag_super,[103]);
(7503,Tag_super,[107]);
(7504,Tag_super,[109]);
(7505,Tag_super,[331]);
(7506,Tag_super,[111]);
(7507,Tag_super,[596]);
(7508,Tag_super,[7446]);
(7509,Tag_super,[7447]);
(7510,Tag_super,[112]);
(7511,Tag_super,[116]);
(7512,Tag_super,[117]);
(7513,Tag_super,[7453]);
(7514,Tag_super,[623]);
(7515,Tag_super,[118]);
(7516,Tag_super,[7461]);
(7517,Tag_super,[946]);
(7518,Tag_super,[947]);
(7519,Tag_super,[948]);
(7520,Tag_super,[966]);
(7521,Tag_super,[967]);
(7522,Tag_sub,[105]);
(7523,Tag_sub,[114]);
(7524,Tag_sub,[117]);
(7525,Tag_sub,[118]);
(7526,Tag_sub,[946]);
(7527,Tag_sub,[947]);
(7528,Tag_sub,[961]);
(7529,Tag_sub,[966]);
(7530,Tag_sub,[967]);
(7544,Tag_super,[1085]);
(7579,Tag_super,[594]);
(7580,Tag_super,[99]);
(7581,Tag_super,[597]);
(7582,Tag_super,[240]);
(7583,Tag_super,[604]);
(7584,Tag_super,[102]);
(7585,Tag_super,[607]);
(7586,Tag_super,[609]);
(7587,Tag_super,[613]);
(7588,Tag_super,[616]);
(7589,Tag_super,[617]);
(7590,Tag_super,[618]);
(7591,Tag_super,[7547]);
(7592,Tag_super,[669]);
(7593,Tag_super,[621]);
(7594,Tag_super,[7557]);
(7595,Tag_super,[671]);
(7596,Tag_super,[625]);
(7597,Tag_super,[624]);
(7598,Tag_super,[626]);
(7599,Tag_super,[627]);
(7600,Tag_super,[628]);
(7601,Tag_super,[629]);
(7602,Tag_super,[632]);
(7603,Tag_super,[642]);
(7604,Tag_super,[643]);
(7605,Tag_super,[427]);
(7606,Tag_super,[649]);
(7607,Tag_super,[650]);
(7608,Tag_super,[7452]);
(7609,Tag_super,[651]);
(7610,Tag_super,[652]);
(7611,Tag_super,[122]);
(7612,Tag_super,[656]);
(7613,Tag_super,[657]);
(7614,Tag_super,[658]);
(7615,Tag_super,[952]);
(7680,Canonical,[65;805]);
(7681,Canonical,[97;805]);
(7682,Canonical,[66;775]);
(7683,Canonical,[98;775]);
(7684,Canonical,[66;803]);
(7685,Canonical,[98;803]);
(7686,Canonical,[66;817]);
(7687,Canonical,[98;817]);
(7688,Canonical,[199;769]);
(7689,Canonical,[231;769]);
(7690,Canonical,[68;775]);
(7691,Canonical,[100;775]);
(7692,Canonical,[68;803]);
(7693,Canonical,[100;803]);
(7694,Canonical,[68;817]);
(7695,Canonical,[100;817]);
(7696,Canonical,[68;807]);
(7697,Canonical,[100;807]);
(7698,Canonical,[68;813]);
(7699,Canonical,[100;813]);
(7700,Canonical,[274;768]);
(7701,Canonical,[275;768]);
(7702,Canonical,[274;769]);
(7703,Canonical,[275;769]);
(7704,Canonical,[69;813]);
(7705,Canonical,[101;813]);
(7706,Canonical,[69;816]);
(7707,Canonical,[101;816]);
(7708,Canonical,[552;774]);
(7709,Canonical,[553;774]);
(7710,Canonical,[70;775]);
(7711,Canonical,[102;775]);
(7712,Canonical,[71;772]);
(7713,Canonical,[103;772]);
(7714,Canonical,[72;775]);
(7715,Canonical,[104;775]);
(7716,Canonical,[72;803]);
(7717,Canonical,[104;803]);
(7718,Canonical,[72;776]);
(7719,Canonical,[104;776]);
(7720,Canonical,[72;807]);
(7721,Canonical,[104;807]);
(7722,Canonical,[72;814]);
(7723,Canonical,[104;814]);
(7724,Canonical,[73;816]);
(7725,Canonical,[105;816]);
(7726,Canonical,[207;769]);
(7727,Canonical,[239;769]);
(7728,Canonical,[75;769]);
(7729,Canonical,[107;769]);
(7730,Canonical,[75;803]);
(7731,Canonical,[107;803]);
(7732,Canonical,[75;817]);
(7733,Canonical,[107;817]);
(7734,Canonical,[76;803]);
(7735,Canonical,[108;803]);
(7736,Canonical,[7734;772]);
(7737,Canonical,[7735;772]);
(7738,Canonical,[76;817]);
(7739,Canonical,[108;817]);
(7740,Canonical,[76;813]);
(7741,Canonical,[108;813]);
(7742,Canonical,[77;769]);
(7743,Canonical,[109;769]);
(7744,Canonical,[77;775]);
(7745,Canonical,[109;775]);
(7746,Canonical,[77;803]);
(7747,Canonical,[109;803]);
(7748,Canonical,[78;775]);
(7749,Canonical,[110;775]);
(7750,Canonical,[78;803]);
(7751,Canonical,[110;803]);
(7752,Canonical,[78;817]);
(7753,Canonical,[110;817]);
(7754,Canonical,[78;813]);
(7755,Canonical,[110;813]);
(7756,Canonical,[213;769]);
(7757,Canonical,[245;769]);
(7758,Canonical,[213;776]);
(7759,Canonical,[245;776]);
(7760,Canonical,[332;768]);
(7761,Canonical,[333;768]);
(7762,Canonical,[332;769]);
(7763,Canonical,[333;769]);
(7764,Canonical,[80;769]);
(7765,Canonical,[112;769]);
(7766,Canonical,[80;775]);
(7767,Canonical,[112;775]);
(7768,Canonical,[82;775]);
(7769,Canonical,[114;775]);
(7770,Canonical,[82;803]);
(7771,Canonical,[114;803]);
(7772,Canonical,[7770;772]);
(7773,Canonical,[7771;772]);
(7774,Canonical,[82;817]);
(7775,Canonical,[114;817]);
(7776,Canonical,[83;775]);
(7777,Canonical,[115;775]);
(7778,Canonical,[83;803]);
(7779,Canonical,[115;803]);
(7780,Canonical,[346;775]);
(7781,Canonical,[347;775]);
(7782,Canonical,[352;775]);
(7783,Canonical,[353;775]);
(7784,Canonical,[7778;775]);
(7785,Canonical,[7779;775]);
(7786,Canonical,[84;775]);
(7787,Canonical,[116;775]);
(7788,Canonical,[84;803]);
(7789,Canonical,[116;803]);
(7790,Canonical,[84;817]);
(7791,Canonical,[116;817]);
(7792,Canonical,[84;813]);
(7793,Canonical,[116;813]);
(7794,Canonical,[85;804]);
(7795,Canonical,[117;804]);
(7796,Canonical,[85;816]);
(7797,Canonical,[117;816]);
(7798,Canonical,[85;813]);
(7799,Canonical,[117;813]);
(7800,Canonical,[360;769]);
(7801,Canonical,[361;769]);
(7802,Canonical,[362;776]);
(7803,Canonical,[363;776]);
(7804,Canonical,[86;771]);
(7805,Canonical,[118;771]);
(7806,Canonical,[86;803]);
(7807,Canonical,[118;803]);
(7808,Canonical,[87;768]);
(7809,Canonical,[119;768]);
(7810,Canonical,[87;769]);
(7811,Canonical,[119;769]);
(7812,Canonical,[87;776]);
(7813,Canonical,[119;776]);
(7814,Canonical,[87;775]);
(7815,Canonical,[119;775]);
(7816,Canonical,[87;803]);
(7817,Canonical,[119;803]);
(7818,Canonical,[88;775]);
(7819,Canonical,[120;775]);
(7820,Canonical,[88;776]);
(7821,Canonical,[120;776]);
(7822,Canonical,[89;775]);
(7823,Canonical,[121;775]);
(7824,Canonical,[90;770]);
(7825,Canonical,[122;770]);
(7826,Canonical,[90;803]);
(7827,Canonical,[122;803]);
(7828,Canonical,[90;817]);
(7829,Canonical,[122;817]);
(7830,Canonical,[104;817]);
(7831,Canonical,[116;776]);
(7832,Canonical,[119;778]);
(7833,Canonical,[121;778]);
(7834,Tag_compat,[97;702]);
(7835,Canonical,[383;775]);
(7840,Canonical,[65;803]);
(7841,Canonical,[97;803]);
(7842,Canonical,[65;777]);
(7843,Canonical,[97;777]);
(7844,Canonical,[194;769]);
(7845,Canonical,[226;769]);
(7846,Canonical,[194;768]);
(7847,Canonical,[226;768]);
(7848,Canonical,[194;777]);
(7849,Canonical,[226;777]);
(7850,Canonical,[194;771]);
(7851,Canonical,[226;771]);
(7852,Canonical,[7840;770]);
(7853,Canonical,[7841;770]);
(7854,Canonical,[258;769]);
(7855,Canonical,[259;769]);
(7856,Canonical,[258;768]);
(7857,Canonical,[259;768]);
(7858,Canonical,[258;777]);
(7859,Canonical,[259;777]);
(7860,Canonical,[258;771]);
(7861,Canonical,[259;771]);
(7862,Canonical,[7840;774]);
(7863,Canonical,[7841;774]);
(7864,Canonical,[69;803]);
(7865,Canonical,[101;803]);
(7866,Canonical,[69;777]);
(7867,Canonical,[101;777]);
(7868,Canonical,[69;771]);
(7869,Canonical,[101;771]);
(7870,Canonical,[202;769]);
(7871,Canonical,[234;769]);
(7872,Canonical,[202;768]);
(7873,Canonical,[234;768]);
(7874,Canonical,[202;777]);
(7875,Canonical,[234;777]);
(7876,Canonical,[202;771]);
(7877,Canonical,[234;771]);
(7878,Canonical,[7864;770]);
(7879,Canonical,[7865;770]);
(7880,Canonical,[73;777]);
(7881,Canonical,[105;777]);
(7882,Canonical,[73;803]);
(7883,Canonical,[105;803]);
(7884,Canonical,[79;803]);
(7885,Canonical,[111;803]);
(7886,Canonical,[79;777]);
(7887,Canonical,[111;777]);
(7888,Canonical,[212;769]);
(7889,Canonical,[244;769]);
(7890,Canonical,[212;768]);
(7891,Canonical,[244;768]);
(7892,Canonical,[212;777]);
(7893,Canonical,[244;777]);
(7894,Canonical,[212;771]);
(7895,Canonical,[244;771]);
(7896,Canonical,[7884;770]);
(7897,Canonical,[7885;770]);
(7898,Canonical,[416;769]);
(7899,Canonical,[417;769]);
(7900,Canonical,[416;768]);
(7901,Canonical,[417;768]);
(7902,Canonical,[416;777]);
(7903,Canonical,[417;777]);
(7904,Canonical,[416;771]);
(7905,Canonical,[417;771]);
(7906,Canonical,[416;803]);
(7907,Canonical,[417;803]);
(7908,Canonical,[85;803]);
(7909,Canonical,[117;803]);
(7910,Canonical,[85;777]);
(7911,Canonical,[117;777]);
(7912,Canonical,[431;769]);
(7913,Canonical,[432;769]);
(7914,Canonical,[431;768]);
(7915,Canonical,[432;768]);
(7916,Canonical,[431;777]);
(7917,Canonical,[432;777]);
(7918,Canonical,[431;771]);
(7919,Canonical,[432;771]);
(7920,Canonical,[431;803]);
(7921,Canonical,[432;803]);
(7922,Canonical,[89;768]);
(7923,Canonical,[121;768]);
(7924,Canonical,[89;803]);
(7925,Canonical,[121;803]);
(7926,Canonical,[89;777]);
(7927,Canonical,[121;777]);
(7928,Canonical,[89;771]);
(7929,Canonical,[121;771]);
(7936,Canonical,[945;787]);
(7937,Canonical,[945;788]);
(7938,Canonical,[7936;768]);
(7939,Canonical,[7937;768]);
(7940,Canonical,[7936;769]);
(7941,Canonical,[7937;769]);
(7942,Canonical,[7936;834]);
(7943,Canonical,[7937;834]);
(7944,Canonical,[913;787]);
(7945,Canonical,[913;788]);
(7946,Canonical,[7944;768]);
(7947,Canonical,[7945;768]);
(7948,Canonical,[7944;769]);
(7949,Canonical,[7945;769]);
(7950,Canonical,[7944;834]);
(7951,Canonical,[7945;834]);
(7952,Canonical,[949;787]);
(7953,Canonical,[949;788]);
(7954,Canonical,[7952;768]);
(7955,Canonical,[7953;768]);
(7956,Canonical,[7952;769]);
(7957,Canonical,[7953;769]);
(7960,Canonical,[917;787]);
(7961,Canonical,[917;788]);
(7962,Canonical,[7960;768]);
(7963,Canonical,[7961;768]);
(7964,Canonical,[7960;769]);
(7965,Canonical,[7961;769]);
(7968,Canonical,[951;787]);
(7969,Canonical,[951;788]);
(7970,Canonical,[7968;768]);
(7971,Canonical,[7969;768]);
(7972,Canonical,[7968;769]);
(7973,Canonical,[7969;769]);
(7974,Canonical,[7968;834]);
(7975,Canonical,[7969;834]);
(7976,Canonical,[919;787]);
(7977,Canonical,[919;788]);
(7978,Canonical,[7976;768]);
(7979,Canonical,[7977;768]);
(7980,Canonical,[7976;769]);
(7981,Canonical,[7977;769]);
(7982,Canonical,[7976;834]);
(7983,Canonical,[7977;834]);
(7984,Canonical,[953;787]);
(7985,Canonical,[953;788]);
(7986,Canonical,[7984;768]);
(7987,Canonical,[7985;768]);
(7988,Canonical,[7984;769]);
(7989,Canonical,[7985;769]);
(7990,Canonical,[7984;834]);
(7991,Canonical,[7985;834]);
(7992,Canonical,[921;787]);
(7993,Canonical,[921;788]);
(7994,Canonical,[7992;768]);
(7995,Canonical,[7993;768]);
(7996,Canonical,[7992;769]);
(7997,Canonical,[7993;769]);
(7998,Canonical,[7992;834]);
(7999,Canonical,[7993;834]);
(8000,Canonical,[959;787]);
(8001,Canonical,[959;788]);
(8002,Canonical,[8000;768]);
(8003,Canonical,[8001;768]);
(8004,Canonical,[8000;769]);
(8005,Canonical,[8001;769]);
(8008,Canonical,[927;787]);
(8009,Canonical,[927;788]);
(8010,Canonical,[8008;768]);
(8011,Canonical,[8009;768]);
(8012,Canonical,[8008;769]);
(8013,Canonical,[8009;769]);
(8016,Canonical,[965;787]);
(8017,Canonical,[965;788]);
(8018,Canonical,[8016;768]);
(8019,Canonical,[8017;768]);
(8020,Canonical,[8016;769]);
(8021,Canonical,[8017;769]);
(8022,Canonical,[8016;834]);
(8023,Canonical,[8017;834]);
(8025,Canonical,[933;788]);
(8027,Canonical,[8025;768]);
(8029,Canonical,[8025;769]);
(8031,Canonical,[8025;834]);
(8032,Canonical,[969;787]);
(8033,Canonical,[969;788]);
(8034,Canonical,[8032;768]);
(8035,Canonical,[8033;768]);
(8036,Canonical,[8032;769]);
(8037,Canonical,[8033;769]);
(8038,Canonical,[8032;834]);
(8039,Canonical,[8033;834]);
(8040,Canonical,[937;787]);
(8041,Canonical,[937;788]);
(8042,Canonical,[8040;768]);
(8043,Canonical,[8041;768]);
(8044,Canonical,[8040;769]);
(8045,Canonical,[8041;769]);
(8046,Canonical,[8040;834]);
(8047,Canonical,[8041;834]);
(8048,Canonical,[945;768]);
(8049,Canonical,[940]);
(8050,Canonical,[949;768]);
(8051,Canonical,[941]);
(8052,Canonical,[951;768]);
(8053,Canonical,[942]);
(8054,Canonical,[953;768]);
(8055,Canonical,[943]);
(8056,Canonical,[959;768]);
(8057,Canonical,[972]);
(8058,Canonical,[965;768]);
(8059,Canonical,[973]);
(8060,Canonical,[969;768]);
(8061,Canonical,[974]);
(8064,Canonical,[7936;837]);
(8065,Canonical,[7937;837]);
(8066,Canonical,[7938;837]);
(8067,Canonical,[7939;837]);
(8068,Canonical,[7940;837]);
(8069,Canonical,[7941;837]);
(8070,Canonical,[7942;837]);
(8071,Canonical,[7943;837]);
(8072,Canonical,[7944;837]);
(8073,Canonical,[7945;837]);
(8074,Canonical,[7946;837]);
(8075,Canonical,[7947;837]);
(8076,Canonical,[7948;837]);
(8077,Canonical,[7949;837]);
(8078,Canonical,[7950;837]);
(8079,Canonical,[7951;837]);
(8080,Canonical,[7968;837]);
(8081,Canonical,[7969;837]);
(8082,Canonical,[7970;837]);
(8083,Canonical,[7971;837]);
(8084,Canonical,[7972;837]);
(8085,Canonical,[7973;837]);
(8086,Canonical,[7974;837]);
(8087,Canonical,[7975;837]);
(8088,Canonical,[7976;837]);
(8089,Canonical,[7977;837]);
(8090,Canonical,[7978;837]);
(8091,Canonical,[7979;837]);
(8092,Canonical,[7980;837]);
(8093,Canonical,[7981;837]);
(8094,Canonical,[7982;837]);
(8095,Canonical,[7983;837]);
(8096,Canonical,[8032;837]);
(8097,Canonical,[8033;837]);
(8098,Canonical,[8034;837]);
(8099,Canonical,[8035;837]);
(8100,Canonical,[8036;837]);
(8101,Canonical,[8037;837]);
(8102,Canonical,[8038;837]);
(8103,Canonical,[8039;837]);
(8104,Canonical,[8040;837]);
(8105,Canonical,[8041;837]);
(8106,Canonical,[8042;837]);
(8107,Canonical,[8043;837]);
(8108,Canonical,[8044;837]);
(8109,Canonical,[8045;837]);
(8110,Canonical,[8046;837]);
(8111,Canonical,[8047;837]);
(8112,Canonical,[945;774]);
(8113,Canonical,[945;772]);
(8114,Canonical,[8048;837]);
(8115,Canonical,[945;837]);
(8116,Canonical,[940;837]);
(8118,Canonical,[945;834]);
(8119,Canonical,[8118;837]);
(8120,Canonical,[913;774]);
(8121,Canonical,[913;772]);
(8122,Canonical,[913;768]);
(8123,Canonical,[902]);
(8124,Canonical,[913;837]);
(8125,Tag_compat,[32;787]);
(8126,Canonical,[953]);
(8127,Tag_compat,[32;787]);
(8128,Tag_compat,[32;834]);
(8129,Canonical,[168;834]);
(8130,Canonical,[8052;837]);
(8131,Canonical,[951;837]);
(8132,Canonical,[942;837]);
(8134,Canonical,[951;834]);
(8135,Canonical,[8134;837]);
(8136,Canonical,[917;768]);
(8137,Canonical,[904]);
(8138,Canonical,[919;768]);
(8139,Canonical,[905]);
(8140,Canonical,[919;837]);
(8141,Canonical,[8127;768]);
(8142,Canonical,[8127;769]);
(8143,Canonical,[8127;834]);
(8144,Canonical,[953;774]);
(8145,Canonical,[953;772]);
(8146,Canonical,[970;768]);
(8147,Canonical,[912]);
(8150,Canonical,[953;834]);
(8151,Canonical,[970;834]);
(8152,Canonical,[921;774]);
(8153,Canonical,[921;772]);
(8154,Canonical,[921;768]);
(8155,Canonical,[906]);
(8157,Canonical,[8190;768]);
(8158,Canonical,[8190;769]);
(8159,Canonical,[8190;834]);
(8160,Canonical,[965;774]);
(8161,Canonical,[965;772]);
(8162,Canonical,[971;768]);
(8163,Canonical,[944]);
(8164,Canonical,[961;787]);
(8165,Canonical,[961;788]);
(8166,Canonical,[965;834]);
(8167,Canonical,[971;834]);
(8168,Canonical,[933;774]);
(8169,Canonical,[933;772]);
(8170,Canonical,[933;768]);
(8171,Canonical,[910]);
(8172,Canonical,[929;788]);
(8173,Canonical,[168;768]);
(8174,Canonical,[901]);
(8175,Canonical,[96]);
(8178,Canonical,[8060;837]);
(8179,Canonical,[969;837]);
(8180,Canonical,[974;837]);
(8182,Canonical,[969;834]);
(8183,Canonical,[8182;837]);
(8184,Canonical,[927;768]);
(8185,Canonical,[908]);
(8186,Canonical,[937;768]);
(8187,Canonical,[911]);
(8188,Canonical,[937;837]);
(8189,Canonical,[180]);
(8190,Tag_compat,[32;788]);
(8192,Canonical,[8194]);
(8193,Canonical,[8195]);
(8194,Tag_compat,[32]);
(8195,Tag_compat,[32]);
(8196,Tag_compat,[32]);
(8197,Tag_compat,[32]);
(8198,Tag_compat,[32]);
(8199,Tag_noBreak,[32]);
(8200,Tag_compat,[32]);
(8201,Tag_compat,[32]);
(8202,Tag_compat,[32]);
(8209,Tag_noBreak,[8208]);
(8215,Tag_compat,[32;819]);
(8228,Tag_compat,[46]);
(8229,Tag_compat,[46;46]);
(8230,Tag_compat,[46;46;46]);
(8239,Tag_noBreak,[32]);
(8243,Tag_compat,[8242;8242]);
(8244,Tag_compat,[8242;8242;8242]);
(8246,Tag_compat,[8245;8245]);
(8247,Tag_compat,[8245;8245;8245]);
(8252,Tag_compat,[33;33]);
(8254,Tag_compat,[32;773]);
(8263,Tag_compat,[63;63]);
(8264,Tag_compat,[63;33]);
(8265,Tag_compat,[33;63]);
(8279,Tag_compat,[8242;8242;8242;8242]);
(8287,Tag_compat,[32]);
(8304,Tag_super,[48]);
(8305,Tag_super,[105]);
(8308,Tag_super,[52]);
(8309,Tag_super,[53]);
(8310,Tag_super,[54]);
(8311,Tag_super,[55]);
(8312,Tag_super,[56]);
(8313,Tag_super,[57]);
(8314,Tag_super,[43]);
(8315,Tag_super,[8722]);
(8316,Tag_super,[61]);
(8317,Tag_super,[40]);
(8318,Tag_super,[41]);
(8319,Tag_super,[110]);
(8320,Tag_sub,[48]);
(8321,Tag_sub,[49]);
(8322,Tag_sub,[50]);
(8323,Tag_sub,[51]);
(8324,Tag_sub,[52]);
(8325,Tag_sub,[53]);
(8326,Tag_sub,[54]);
(8327,Tag_sub,[55]);
(8328,Tag_sub,[56]);
(8329,Tag_sub,[57]);
(8330,Tag_sub,[43]);
(8331,Tag_sub,[8722]);
(8332,Tag_sub,[61]);
(8333,Tag_sub,[40]);
(8334,Tag_sub,[41]);
(8336,Tag_sub,[97]);
(8337,Tag_sub,[101]);
(8338,Tag_sub,[111]);
(8339,Tag_sub,[120]);
(8340,Tag_sub,[601]);
(8341,Tag_sub,[104]);
(8342,Tag_sub,[107]);
(8343,Tag_sub,[108]);
(8344,Tag_sub,[109]);
(8345,Tag_sub,[110]);
(8346,Tag_sub,[112]);
(8347,Tag_sub,[115]);
(8348,Tag_sub,[116]);
(8360,Tag_compat,[82;115]);
(8448,Tag_compat,[97;47;99]);
(8449,Tag_compat,[97;47;115]);
(8450,Tag_font,[67]);
(8451,Tag_compat,[176;67]);
(8453,Tag_compat,[99;47;111]);
(8454,Tag_compat,[99;47;117]);
(8455,Tag_compat,[400]);
(8457,Tag_compat,[176;70]);
(8458,Tag_font,[103]);
(8459,Tag_font,[72]);
(8460,Tag_font,[72]);
(8461,Tag_font,[72]);
(8462,Tag_font,[104]);
(8463,Tag_font,[295]);
(8464,Tag_font,[73]);
(8465,Tag_font,[73]);
(8466,Tag_font,[76]);
(8467,Tag_font,[108]);
(8469,Tag_font,[78]);
(8470,Tag_compat,[78;111]);
(8473,Tag_font,[80]);
(8474,Tag_font,[81]);
(8475,Tag_font,[82]);
(8476,Tag_font,[82]);
(8477,Tag_font,[82]);
(8480,Tag_super,[83;77]);
(8481,Tag_compat,[84;69;76]);
(8482,Tag_super,[84;77]);
(8484,Tag_font,[90]);
(8486,Canonical,[937]);
(8488,Tag_font,[90]);
(8490,Canonical,[75]);
(8491,Canonical,[197]);
(8492,Tag_font,[66]);
(8493,Tag_font,[67]);
(8495,Tag_font,[101]);
(8496,Tag_font,[69]);
(8497,Tag_font,[70]);
(8499,Tag_font,[77]);
(8500,Tag_font,[111]);
(8501,Tag_compat,[1488]);
(8502,Tag_compat,[1489]);
(8503,Tag_compat,[1490]);
(8504,Tag_compat,[1491]);
(8505,Tag_font,[105]);
(8507,Tag_compat,[70;65;88]);
(8508,Tag_font,[960]);
(8509,Tag_font,[947]);
(8510,Tag_font,[915]);
(8511,Tag_font,[928]);
(8512,Tag_font,[8721]);
(8517,Tag_font,[68]);
(8518,Tag_font,[100]);
(8519,Tag_font,[101]);
(8520,Tag_font,[105]);
(8521,Tag_font,[106]);
(8528,Tag_fraction,[49;8260;55]);
(8529,Tag_fraction,[49;8260;57]);
(8530,Tag_fraction,[49;8260;49;48]);
(8531,Tag_fraction,[49;8260;51]);
(8532,Tag_fraction,[50;8260;51]);
(8533,Tag_fraction,[49;8260;53]);
(8534,Tag_fraction,[50;8260;53]);
(8535,Tag_fraction,[51;8260;53]);
(8536,Tag_fraction,[52;8260;53]);
(8537,Tag_fraction,[49;8260;54]);
(8538,Tag_fraction,[53;8260;54]);
(8539,Tag_fraction,[49;8260;56]);
(8540,Tag_fraction,[51;8260;56]);
(8541,Tag_fraction,[53;8260;56]);
(8542,Tag_fraction,[55;8260;56]);
(8543,Tag_fraction,[49;8260]);
(8544,Tag_compat,[73]);
(8545,Tag_compat,[73;73]);
(8546,Tag_compat,[73;73;73]);
(8547,Tag_compat,[73;86]);
(8548,Tag_compat,[86]);
(8549,Tag_compat,[86;73]);
(8550,Tag_compat,[86;73;73]);
(8551,Tag_compat,[86;73;73;73]);
(8552,Tag_compat,[73;88]);
(8553,Tag_compat,[88]);
(8554,Tag_compat,[88;73]);
(8555,Tag_compat,[88;73;73]);
(8556,Tag_compat,[76]);
(8557,Tag_compat,[67]);
(8558,Tag_compat,[68]);
(8559,Tag_compat,[77]);
(8560,Tag_compat,[105]);
(8561,Tag_compat,[105;105]);
(8562,Tag_compat,[105;105;105]);
(8563,Tag_compat,[105;118]);
(8564,Tag_compat,[118]);
(8565,Tag_compat,[118;105]);
(8566,Tag_compat,[118;105;105]);
(8567,Tag_compat,[118;105;105;105]);
(8568,Tag_compat,[105;120]);
(8569,Tag_compat,[120]);
(8570,Tag_compat,[120;105]);
(8571,Tag_compat,[120;105;105]);
(8572,Tag_compat,[108]);
(8573,Tag_compat,[99]);
(8574,Tag_compat,[100]);
(8575,Tag_compat,[109]);
(8585,Tag_fraction,[48;8260;51]);
(8602,Canonical,[8592;824]);
(8603,Canonical,[8594;824]);
(8622,Canonical,[8596;824]);
(8653,Canonical,[8656;824]);
(8654,Canonical,[8660;824]);
(8655,Canonical,[8658;824]);
(8708,Canonical,[8707;824]);
(8713,Canonical,[8712;824]);
(8716,Canonical,[8715;824]);
(8740,Canonical,[8739;824]);
(8742,Canonical,[8741;824]);
(8748,Tag_compat,[8747;8747]);
(8749,Tag_compat,[8747;8747;8747]);
(8751,Tag_compat,[8750;8750]);
(8752,Tag_compat,[8750;8750;8750]);
(8769,Canonical,[8764;824]);
(8772,Canonical,[8771;824]);
(8775,Canonical,[8773;824]);
(8777,Canonical,[8776;824]);
(8800,Canonical,[61;824]);
(8802,Canonical,[8801;824]);
(8813,Canonical,[8781;824]);
(8814,Canonical,[60;824]);
(8815,Canonical,[62;824]);
(8816,Canonical,[8804;824]);
(8817,Canonical,[8805;824]);
(8820,Canonical,[8818;824]);
(8821,Canonical,[8819;824]);
(8824,Canonical,[8822;824]);
(8825,Canonical,[8823;824]);
(8832,Canonical,[8826;824]);
(8833,Canonical,[8827;824]);
(8836,Canonical,[8834;824]);
(8837,Canonical,[8835;824]);
(8840,Canonical,[8838;824]);
(8841,Canonical,[8839;824]);
(8876,Canonical,[8866;824]);
(8877,Canonical,[8872;824]);
(8878,Canonical,[8873;824]);
(8879,Canonical,[8875;824]);
(8928,Canonical,[8828;824]);
(8929,Canonical,[8829;824]);
(8930,Canonical,[8849;824]);
(8931,Canonical,[8850;824]);
(8938,Canonical,[8882;824]);
(8939,Canonical,[8883;824]);
(8940,Canonical,[8884;824]);
(8941,Canonical,[8885;824]);
(9001,Canonical,[12296]);
(9002,Canonical,[12297]);
(9312,Tag_circle,[49]);
(9313,Tag_circle,[50]);
(9314,Tag_circle,[51]);
(9315,Tag_circle,[52]);
(9316,Tag_circle,[53]);
(9317,Tag_circle,[54]);
(9318,Tag_circle,[55]);
(9319,Tag_circle,[56]);
(9320,Tag_circle,[57]);
(9321,Tag_circle,[49;48]);
(9322,Tag_circle,[49;49]);
(9323,Tag_circle,[49;50]);
(9324,Tag_circle,[49;51]);
(9325,Tag_circle,[49;52]);
(9326,Tag_circle,[49;53]);
(9327,Tag_circle,[49;54]);
(9328,Tag_circle,[49;55]);
(9329,Tag_circle,[49;56]);
(9330,Tag_circle,[49;57]);
(9331,Tag_circle,[50;48]);
(9332,Tag_compat,[40;49;41]);
(9333,Tag_compat,[40;50;41]);
(9334,Tag_compat,[40;51;41]);
(9335,Tag_compat,[40;52;41]);
(9336,Tag_compat,[40;53;41]);
(9337,Tag_compat,[40;54;41]);
(9338,Tag_compat,[40;55;41]);
(9339,Tag_compat,[40;56;41]);
(9340,Tag_compat,[40;57;41]);
(9341,Tag_compat,[40;49;48;41]);
(9342,Tag_compat,[40;49;49;41]);
(9343,Tag_compat,[40;49;50;41]);
(9344,Tag_compat,[40;49;51;41]);
(9345,Tag_compat,[40;49;52;41]);
(9346,Tag_compat,[40;49;53;41]);
(9347,Tag_compat,[40;49;54;41]);
(9348,Tag_compat,[40;49;55;41]);
(9349,Tag_compat,[40;49;56;41]);
(9350,Tag_compat,[40;49;57;41]);
(9351,Tag_compat,[40;50;48;41]);
(9352,Tag_compat,[49;46]);
(9353,Tag_compat,[50;46]);
(9354,Tag_compat,[51;46]);
(9355,Tag_compat,[52;46]);
(9356,Tag_compat,[53;46]);
(9357,Tag_compat,[54;46]);
(9358,Tag_compat,[55;46]);
(9359,Tag_compat,[56;46]);
(9360,Tag_compat,[57;46]);
(9361,Tag_compat,[49;48;46]);
(9362,Tag_compat,[49;49;46]);
(9363,Tag_compat,[49;50;46]);
(9364,Tag_compat,[49;51;46]);
(9365,Tag_compat,[49;52;46]);
(9366,Tag_compat,[49;53;46]);
(9367,Tag_compat,[49;54;46]);
(9368,Tag_compat,[49;55;46]);
(9369,Tag_compat,[49;56;46]);
(9370,Tag_compat,[49;57;46]);
(9371,Tag_compat,[50;48;46]);
(9372,Tag_compat,[40;97;41]);
(9373,Tag_compat,[40;98;41]);
(9374,Tag_compat,[40;99;41]);
(9375,Tag_compat,[40;100;41]);
(9376,Tag_compat,[40;101;41]);
(9377,Tag_compat,[40;102;41]);
(9378,Tag_compat,[40;103;41]);
(9379,Tag_compat,[40;104;41]);
(9380,Tag_compat,[40;105;41]);
(9381,Tag_compat,[40;106;41]);
(9382,Tag_compat,[40;107;41]);
(9383,Tag_compat,[40;108;41]);
(9384,Tag_compat,[40;109;41]);
(9385,Tag_compat,[40;110;41]);
(9386,Tag_compat,[40;111;41]);
(9387,Tag_compat,[40;112;41]);
(9388,Tag_compat,[40;113;41]);
(9389,Tag_compat,[40;114;41]);
(9390,Tag_compat,[40;115;41]);
(9391,Tag_compat,[40;116;41]);
(9392,Tag_compat,[40;117;41]);
(9393,Tag_compat,[40;118;41]);
(9394,Tag_compat,[40;119;41]);
(9395,Tag_compat,[40;120;41]);
(9396,Tag_compat,[40;121;41]);
(9397,Tag_compat,[40;122;41]);
(9398,Tag_circle,[65]);
(9399,Tag_circle,[66]);
(9400,Tag_circle,[67]);
(9401,Tag_circle,[68]);
(9402,Tag_circle,[69]);
(9403,Tag_circle,[70]);
(9404,Tag_circle,[71]);
(9405,Tag_circle,[72]);
(9406,Tag_circle,[73]);
(9407,Tag_circle,[74]);
(9408,Tag_circle,[75]);
(9409,Tag_circle,[76]);
(9410,Tag_circle,[77]);
(9411,Tag_circle,[78]);
(9412,Tag_circle,[79]);
(9413,Tag_circle,[80]);
(9414,Tag_circle,[81]);
(9415,Tag_circle,[82]);
(9416,Tag_circle,[83]);
(9417,Tag_circle,[84]);
(9418,Tag_circle,[85]);
(9419,Tag_circle,[86]);
(9420,Tag_circle,[87]);
(9421,Tag_circle,[88]);
(9422,Tag_circle,[89]);
(9423,Tag_circle,[90]);
(9424,Tag_circle,[97]);
(9425,Tag_circle,[98]);
(9426,Tag_circle,[99]);
(9427,Tag_circle,[100]);
(9428,Tag_circle,[101]);
(9429,Tag_circle,[102]);
(9430,Tag_circle,[103]);
(9431,Tag_circle,[104]);
(9432,Tag_circle,[105]);
(9433,Tag_circle,[106]);
(9434,Tag_circle,[107]);
(9435,Tag_circle,[108]);
(9436,Tag_circle,[109]);
(9437,Tag_circle,[110]);
(9438,Tag_circle,[111]);
(9439,Tag_circle,[112]);
(9440,Tag_circle,[113]);
(9441,Tag_circle,[114]);
(9442,Tag_circle,[115]);
(9443,Tag_circle,[116]);
(9444,Tag_circle,[117]);
(9445,Tag_circle,[118]);
(9446,Tag_circle,[119]);
(9447,Tag_circle,[120]);
(9448,Tag_circle,[121]);
(9449,Tag_circle,[122]);
(9450,Tag_circle,[48]);
(10764,Tag_compat,[8747;8747;8747;8747]);
(10868,Tag_compat,[58;58;61]);
(10869,Tag_compat,[61;61]);
(10870,Tag_compat,[61;61;61]);
(10972,Canonical,[10973;824]);
(11388,Tag_sub,[106]);
(11389,Tag_super,[86]);
(11631,Tag_super,[11617]);
(11935,Tag_compat,[27597]);
(12019,Tag_compat,[40863]);
(12032,Tag_compat,[19968]);
(12033,Tag_compat,[20008]);
(12034,Tag_compat,[20022]);
(12035,Tag_compat,[20031]);
(12036,Tag_compat,[20057]);
(12037,Tag_compat,[20101]);
(12038,Tag_compat,[20108]);
(12039,Tag_compat,[20128]);
(12040,Tag_compat,[20154]);
(12041,Tag_compat,[20799]);
(12042,Tag_compat,[20837]);
(12043,Tag_compat,[20843]);
(12044,Tag_compat,[20866]);
(12045,Tag_compat,[20886]);
(12046,Tag_compat,[20907]);
(12047,Tag_compat,[20960]);
(12048,Tag_compat,[20981]);
(12049,Tag_compat,[20992]);
(12050,Tag_compat,[21147]);
(12051,Tag_compat,[21241]);
(12052,Tag_compat,[21269]);
(12053,Tag_compat,[21274]);
(12054,Tag_compat,[21304]);
(12055,Tag_compat,[21313]);
(12056,Tag_compat,[21340]);
(12057,Tag_compat,[21353]);
(12058,Tag_compat,[21378]);
(12059,Tag_compat,[21430]);
(12060,Tag_compat,[21448]);
(12061,Tag_compat,[21475]);
(12062,Tag_compat,[22231]);
(12063,Tag_compat,[22303]);
(12064,Tag_compat,[22763]);
(12065,Tag_compat,[22786]);
(12066,Tag_compat,[22794]);
(12067,Tag_compat,[22805]);
(12068,Tag_compat,[22823]);
(12069,Tag_compat,[22899]);
(12070,Tag_compat,[23376]);
(12071,Tag_compat,[23424]);
(12072,Tag_compat,[23544]);
(12073,Tag_compat,[23567]);
(12074,Tag_compat,[23586]);
(12075,Tag_compat,[23608]);
(12076,Tag_compat,[23662]);
(12077,Tag_compat,[23665]);
(12078,Tag_compat,[24027]);
(12079,Tag_compat,[24037]);
(12080,Tag_compat,[24049]);
(12081,Tag_compat,[24062]);
(12082,Tag_compat,[24178]);
(12083,Tag_compat,[24186]);
(12084,Tag_compat,[24191]);
(12085,Tag_compat,[24308]);
(12086,Tag_compat,[24318]);
(12087,Tag_compat,[24331]);
(12088,Tag_compat,[24339]);
(12089,Tag_compat,[24400]);
(12090,Tag_compat,[24417]);
(12091,Tag_compat,[24435]);
(12092,Tag_compat,[24515]);
(12093,Tag_compat,[25096]);
(12094,Tag_compat,[25142]);
(12095,Tag_compat,[25163]);
(12096,Tag_compat,[25903]);
(12097,Tag_compat,[25908]);
(12098,Tag_compat,[25991]);
(12099,Tag_compat,[26007]);
(12100,Tag_compat,[26020]);
(12101,Tag_compat,[26041]);
(12102,Tag_compat,[26080]);
(12103,Tag_compat,[26085]);
(12104,Tag_compat,[26352]);
(12105,Tag_compat,[26376]);
(12106,Tag_compat,[26408]);
(12107,Tag_compat,[27424]);
(12108,Tag_compat,[27490]);
(12109,Tag_compat,[27513]);
(12110,Tag_compat,[27571]);
(12111,Tag_compat,[27595]);
(12112,Tag_compat,[27604]);
(12113,Tag_compat,[27611]);
(12114,Tag_compat,[27663]);
(12115,Tag_compat,[27668]);
(12116,Tag_compat,[27700]);
(12117,Tag_compat,[28779]);
(12118,Tag_compat,[29226]);
(12119,Tag_compat,[29238]);
(12120,Tag_compat,[29243]);
(12121,Tag_compat,[29247]);
(12122,Tag_compat,[29255]);
(12123,Tag_compat,[29273]);
(12124,Tag_compat,[29275]);
(12125,Tag_compat,[29356]);
(12126,Tag_compat,[29572]);
(12127,Tag_compat,[29577]);
(12128,Tag_compat,[29916]);
(12129,Tag_compat,[29926]);
(12130,Tag_compat,[29976]);
(12131,Tag_compat,[29983]);
(12132,Tag_compat,[29992]);
(12133,Tag_compat,[30000]);
(12134,Tag_compat,[30091]);
(12135,Tag_compat,[30098]);
(12136,Tag_compat,[30326]);
(12137,Tag_compat,[30333]);
(12138,Tag_compat,[30382]);
(12139,Tag_compat,[30399]);
(12140,Tag_compat,[30446]);
(12141,Tag_compat,[30683]);
(12142,Tag_compat,[30690]);
(12143,Tag_compat,[30707]);
(12144,Tag_compat,[31034]);
(12145,Tag_compat,[31160]);
(12146,Tag_compat,[31166]);
(12147,Tag_compat,[31348]);
(12148,Tag_compat,[31435]);
(12149,Tag_compat,[31481]);
(12150,Tag_compat,[31859]);
(12151,Tag_compat,[31992]);
(12152,Tag_compat,[32566]);
(12153,Tag_compat,[32593]);
(12154,Tag_compat,[32650]);
(12155,Tag_compat,[32701]);
(12156,Tag_compat,[32769]);
(12157,Tag_compat,[32780]);
(12158,Tag_compat,[32786]);
(12159,Tag_compat,[32819]);
(12160,Tag_compat,[32895]);
(12161,Tag_compat,[32905]);
(12162,Tag_compat,[33251]);
(12163,Tag_compat,[33258]);
(12164,Tag_compat,[33267]);
(12165,Tag_compat,[33276]);
(12166,Tag_compat,[33292]);
(12167,Tag_compat,[33307]);
(12168,Tag_compat,[33311]);
(12169,Tag_compat,[33390]);
(12170,Tag_compat,[33394]);
(12171,Tag_compat,[33400]);
(12172,Tag_compat,[34381]);
(12173,Tag_compat,[34411]);
(12174,Tag_compat,[34880]);
(12175,Tag_compat,[34892]);
(12176,Tag_compat,[34915]);
(12177,Tag_compat,[35198]);
(12178,Tag_compat,[35211]);
(12179,Tag_compat,[35282]);
(12180,Tag_compat,[35328]);
(12181,Tag_compat,[35895]);
(12182,Tag_compat,[35910]);
(12183,Tag_compat,[35925]);
(12184,Tag_compat,[35960]);
(12185,Tag_compat,[35997]);
(12186,Tag_compat,[36196]);
(12187,Tag_compat,[36208]);
(12188,Tag_compat,[36275]);
(12189,Tag_compat,[36523]);
(12190,Tag_compat,[36554]);
(12191,Tag_compat,[36763]);
(12192,Tag_compat,[36784]);
(12193,Tag_compat,[36789]);
(12194,Tag_compat,[37009]);
(12195,Tag_compat,[37193]);
(12196,Tag_compat,[37318]);
(12197,Tag_compat,[37324]);
(12198,Tag_compat,[37329]);
(12199,Tag_compat,[38263]);
(12200,Tag_compat,[38272]);
(12201,Tag_compat,[38428]);
(12202,Tag_compat,[38582]);
(12203,Tag_compat,[38585]);
(12204,Tag_compat,[38632]);
(12205,Tag_compat,[38737]);
(12206,Tag_compat,[38750]);
(12207,Tag_compat,[38754]);
(12208,Tag_compat,[38761]);
(12209,Tag_compat,[38859]);
(12210,Tag_compat,[38893]);
(12211,Tag_compat,[38899]);
(12212,Tag_compat,[38913]);
(12213,Tag_compat,[39080]);
(12214,Tag_compat,[39131]);
(12215,Tag_compat,[39135]);
(12216,Tag_compat,[39318]);
(12217,Tag_compat,[39321]);
(12218,Tag_compat,[39340]);
(12219,Tag_compat,[39592]);
(12220,Tag_compat,[39640]);
(12221,Tag_compat,[39647]);
(12222,Tag_compat,[39717]);
(12223,Tag_compat,[39727]);
(12224,Tag_compat,[39730]);
(12225,Tag_compat,[39740]);
(12226,Tag_compat,[39770]);
(12227,Tag_compat,[40165]);
(12228,Tag_compat,[40565]);
(12229,Tag_compat,[40575]);
(12230,Tag_compat,[40613]);
(12231,Tag_compat,[40635]);
(12232,Tag_compat,[40643]);
(12233,Tag_compat,[40653]);
(12234,Tag_compat,[40657]);
(12235,Tag_compat,[40697]);
(12236,Tag_compat,[40701]);
(12237,Tag_compat,[40718]);
(12238,Tag_compat,[40723]);
(12239,Tag_compat,[40736]);
(12240,Tag_compat,[40763]);
(12241,Tag_compat,[40778]);
(12242,Tag_compat,[40786]);
(12243,Tag_compat,[40845]);
(12244,Tag_compat,[40860]);
(12245,Tag_compat,[40864]);
(12288,Tag_wide,[32]);
(12342,Tag_compat,[12306]);
(12344,Tag_compat,[21313]);
(12345,Tag_compat,[21316]);
(12346,Tag_compat,[21317]);
(12364,Canonical,[12363;12441]);
(12366,Canonical,[12365;12441]);
(12368,Canonical,[12367;12441]);
(12370,Canonical,[12369;12441]);
(12372,Canonical,[12371;12441]);
(12374,Canonical,[12373;12441]);
(12376,Canonical,[12375;12441]);
(12378,Canonical,[12377;12441]);
(12380,Canonical,[12379;12441]);
(12382,Canonical,[12381;12441]);
(12384,Canonical,[12383;12441]);
(12386,Canonical,[12385;12441]);
(12389,Canonical,[12388;12441]);
(12391,Canonical,[12390;12441]);
(12393,Canonical,[12392;12441]);
(12400,Canonical,[12399;12441]);
(12401,Canonical,[12399;12442]);
(12403,Canonical,[12402;12441]);
(12404,Canonical,[12402;12442]);
(12406,Canonical,[12405;12441]);
(12407,Canonical,[12405;12442]);
(12409,Canonical,[12408;12441]);
(12410,Canonical,[12408;12442]);
(12412,Canonical,[12411;12441]);
(12413,Canonical,[12411;12442]);
(12436,Canonical,[12358;12441]);
(12443,Tag_compat,[32;12441]);
(12444,Tag_compat,[32;12442]);
(12446,Canonical,[12445;12441]);
(12447,Tag_vertical,[12424;12426]);
(12460,Canonical,[12459;12441]);
(12462,Canonical,[12461;12441]);
(12464,Canonical,[12463;12441]);
(12466,Canonical,[12465;12441]);
(12468,Canonical,[12467;12441]);
(12470,Canonical,[12469;12441]);
(12472,Canonical,[12471;12441]);
(12474,Canonical,[12473;12441]);
(12476,Canonical,[12475;12441]);
(12478,Canonical,[12477;12441]);
(12480,Canonical,[12479;12441]);
(12482,Canonical,[12481;12441]);
(12485,Canonical,[12484;12441]);
(12487,Canonical,[12486;12441]);
(12489,Canonical,[12488;12441]);
(12496,Canonical,[12495;12441]);
(12497,Canonical,[12495;12442]);
(12499,Canonical,[12498;12441]);
(12500,Canonical,[12498;12442]);
(12502,Canonical,[12501;12441]);
(12503,Canonical,[12501;12442]);
(12505,Canonical,[12504;12441]);
(12506,Canonical,[12504;12442]);
(12508,Canonical,[12507;12441]);
(12509,Canonical,[12507;12442]);
(12532,Canonical,[12454;12441]);
(12535,Canonical,[12527;12441]);
(12536,Canonical,[12528;12441]);
(12537,Canonical,[12529;12441]);
(12538,Canonical,[12530;12441]);
(12542,Canonical,[12541;12441]);
(12543,Tag_vertical,[12467;12488]);
(12593,Tag_compat,[4352]);
(12594,Tag_compat,[4353]);
(12595,Tag_compat,[4522]);
(12596,Tag_compat,[4354]);
(12597,Tag_compat,[4524]);
(12598,Tag_compat,[4525]);
(12599,Tag_compat,[4355]);
(12600,Tag_compat,[4356]);
(12601,Tag_compat,[4357]);
(12602,Tag_compat,[4528]);
(12603,Tag_compat,[4529]);
(12604,Tag_compat,[4530]);
(12605,Tag_compat,[4531]);
(12606,Tag_compat,[4532]);
(12607,Tag_compat,[4533]);
(12608,Tag_compat,[4378]);
(12609,Tag_compat,[4358]);
(12610,Tag_compat,[4359]);
(12611,Tag_compat,[4360]);
(12612,Tag_compat,[4385]);
(12613,Tag_compat,[4361]);
(12614,Tag_compat,[4362]);
(12615,Tag_compat,[4363]);
(12616,Tag_compat,[4364]);
(12617,Tag_compat,[4365]);
(12618,Tag_compat,[4366]);
(12619,Tag_compat,[4367]);
(12620,Tag_compat,[4368]);
(12621,Tag_compat,[4369]);
(12622,Tag_compat,[4370]);
(12623,Tag_compat,[4449]);
(12624,Tag_compat,[4450]);
(12625,Tag_compat,[4451]);
(12626,Tag_compat,[4452]);
(12627,Tag_compat,[4453]);
(12628,Tag_compat,[4454]);
(12629,Tag_compat,[4455]);
(12630,Tag_compat,[4456]);
(12631,Tag_compat,[4457]);
(12632,Tag_compat,[4458]);
(12633,Tag_compat,[4459]);
(12634,Tag_compat,[4460]);
(12635,Tag_compat,[4461]);
(12636,Tag_compat,[4462]);
(12637,Tag_compat,[4463]);
(12638,Tag_compat,[4464]);
(12639,Tag_compat,[4465]);
(12640,Tag_compat,[4466]);
(12641,Tag_compat,[4467]);
(12642,Tag_compat,[4468]);
(12643,Tag_compat,[4469]);
(12644,Tag_compat,[4448]);
(12645,Tag_compat,[4372]);
(12646,Tag_compat,[4373]);
(12647,Tag_compat,[4551]);
(12648,Tag_compat,[4552]);
(12649,Tag_compat,[4556]);
(12650,Tag_compat,[4558]);
(12651,Tag_compat,[4563]);
(12652,Tag_compat,[4567]);
(12653,Tag_compat,[4569]);
(12654,Tag_compat,[4380]);
(12655,Tag_compat,[4573]);
(12656,Tag_compat,[4575]);
(12657,Tag_compat,[4381]);
(12658,Tag_compat,[4382]);
(12659,Tag_compat,[4384]);
(12660,Tag_compat,[4386]);
(12661,Tag_compat,[4387]);
(12662,Tag_compat,[4391]);
(12663,Tag_compat,[4393]);
(12664,Tag_compat,[4395]);
(12665,Tag_compat,[4396]);
(12666,Tag_compat,[4397]);
(12667,Tag_compat,[4398]);
(12668,Tag_compat,[4399]);
(12669,Tag_compat,[4402]);
(12670,Tag_compat,[4406]);
(12671,Tag_compat,[4416]);
(12672,Tag_compat,[4423]);
(12673,Tag_compat,[4428]);
(12674,Tag_compat,[4593]);
(12675,Tag_compat,[4594]);
(12676,Tag_compat,[4439]);
(12677,Tag_compat,[4440]);
(12678,Tag_compat,[4441]);
(12679,Tag_compat,[4484]);
(12680,Tag_compat,[4485]);
(12681,Tag_compat,[4488]);
(12682,Tag_compat,[4497]);
(12683,Tag_compat,[4498]);
(12684,Tag_compat,[4500]);
(12685,Tag_compat,[4510]);
(12686,Tag_compat,[4513]);
(12690,Tag_super,[19968]);
(12691,Tag_super,[20108]);
(12692,Tag_super,[19977]);
(12693,Tag_super,[22235]);
(12694,Tag_super,[19978]);
(12695,Tag_super,[20013]);
(12696,Tag_super,[19979]);
(12697,Tag_super,[30002]);
(12698,Tag_super,[20057]);
(12699,Tag_super,[19993]);
(12700,Tag_super,[19969]);
(12701,Tag_super,[22825]);
(12702,Tag_super,[22320]);
(12703,Tag_super,[20154]);
(12800,Tag_compat,[40;4352;41]);
(12801,Tag_compat,[40;4354;41]);
(12802,Tag_compat,[40;4355;41]);
(12803,Tag_compat,[40;4357;41]);
(12804,Tag_compat,[40;4358;41]);
(12805,Tag_compat,[40;4359;41]);
(12806,Tag_compat,[40;4361;41]);
(12807,Tag_compat,[40;4363;41]);
(12808,Tag_compat,[40;4364;41]);
(12809,Tag_compat,[40;4366;41]);
(12810,Tag_compat,[40;4367;41]);
(12811,Tag_compat,[40;4368;41]);
(12812,Tag_compat,[40;4369;41]);
(12813,Tag_compat,[40;4370;41]);
(12814,Tag_compat,[40;4352;4449;41]);
(12815,Tag_compat,[40;4354;4449;41]);
(12816,Tag_compat,[40;4355;4449;41]);
(12817,Tag_compat,[40;4357;4449;41]);
(12818,Tag_compat,[40;4358;4449;41]);
(12819,Tag_compat,[40;4359;4449;41]);
(12820,Tag_compat,[40;4361;4449;41]);
(12821,Tag_compat,[40;4363;4449;41]);
(12822,Tag_compat,[40;4364;4449;41]);
(12823,Tag_compat,[40;4366;4449;41]);
(12824,Tag_compat,[40;4367;4449;41]);
(12825,Tag_compat,[40;4368;4449;41]);
(12826,Tag_compat,[40;4369;4449;41]);
(12827,Tag_compat,[40;4370;4449;41]);
(12828,Tag_compat,[40;4364;4462;41]);
(12829,Tag_compat,[40;4363;4457;4364;4453;4523;41]);
(12830,Tag_compat,[40;4363;4457;4370;4462;41]);
(12832,Tag_compat,[40;19968;41]);
(12833,Tag_compat,[40;20108;41]);
(12834,Tag_compat,[40;19977;41]);
(12835,Tag_compat,[40;22235;41]);
(12836,Tag_compat,[40;20116;41]);
(12837,Tag_compat,[40;20845;41]);
(12838,Tag_compat,[40;19971;41]);
(12839,Tag_compat,[40;20843;41]);
(12840,Tag_compat,[40;20061;41]);
(12841,Tag_compat,[40;21313;41]);
(12842,Tag_compat,[40;26376;41]);
(12843,Tag_compat,[40;28779;41]);
(12844,Tag_compat,[40;27700;41]);
(12845,Tag_compat,[40;26408;41]);
(12846,Tag_compat,[40;37329;41]);
(12847,Tag_compat,[40;22303;41]);
(12848,Tag_compat,[40;26085;41]);
(12849,Tag_compat,[40;26666;41]);
(12850,Tag_compat,[40;26377;41]);
(12851,Tag_compat,[40;31038;41]);
(12852,Tag_compat,[40;21517;41]);
(12853,Tag_compat,[40;29305;41]);
(12854,Tag_compat,[40;36001;41]);
(12855,Tag_compat,[40;31069;41]);
(12856,Tag_compat,[40;21172;41]);
(12857,Tag_compat,[40;20195;41]);
(12858,Tag_compat,[40;21628;41]);
(12859,Tag_compat,[40;23398;41]);
(12860,Tag_compat,[40;30435;41]);
(12861,Tag_compat,[40;20225;41]);
(12862,Tag_compat,[40;36039;41]);
(12863,Tag_compat,[40;21332;41]);
(12864,Tag_compat,[40;31085;41]);
(12865,Tag_compat,[40;20241;41]);
(12866,Tag_compat,[40;33258;41]);
(12867,Tag_compat,[40;33267;41]);
(12868,Tag_circle,[21839]);
(12869,Tag_circle,[24188]);
(12870,Tag_circle,[25991]);
(12871,Tag_circle,[31631]);
(12880,Tag_square,[80;84;69]);
(12881,Tag_circle,[50;49]);
(12882,Tag_circle,[50;50]);
(12883,Tag_circle,[50;51]);
(12884,Tag_circle,[50;52]);
(12885,Tag_circle,[50;53]);
(12886,Tag_circle,[50;54]);
(12887,Tag_circle,[50;55]);
(12888,Tag_circle,[50;56]);
(12889,Tag_circle,[50;57]);
(12890,Tag_circle,[51;48]);
(12891,Tag_circle,[51;49]);
(12892,Tag_circle,[51;50]);
(12893,Tag_circle,[51;51]);
(12894,Tag_circle,[51;52]);
(12895,Tag_circle,[51;53]);
(12896,Tag_circle,[4352]);
(12897,Tag_circle,[4354]);
(12898,Tag_circle,[4355]);
(12899,Tag_circle,[4357]);
(12900,Tag_circle,[4358]);
(12901,Tag_circle,[4359]);
(12902,Tag_circle,[4361]);
(12903,Tag_circle,[4363]);
(12904,Tag_circle,[4364]);
(12905,Tag_circle,[4366]);
(12906,Tag_circle,[4367]);
(12907,Tag_circle,[4368]);
(12908,Tag_circle,[4369]);
(12909,Tag_circle,[4370]);
(12910,Tag_circle,[4352;4449]);
(12911,Tag_circle,[4354;4449]);
(12912,Tag_circle,[4355;4449]);
(12913,Tag_circle,[4357;4449]);
(12914,Tag_circle,[4358;4449]);
(12915,Tag_circle,[4359;4449]);
(12916,Tag_circle,[4361;4449]);
(12917,Tag_circle,[4363;4449]);
(12918,Tag_circle,[4364;4449]);
(12919,Tag_circle,[4366;4449]);
(12920,Tag_circle,[4367;4449]);
(12921,Tag_circle,[4368;4449]);
(12922,Tag_circle,[4369;4449]);
(12923,Tag_circle,[4370;4449]);
(12924,Tag_circle,[4366;4449;4535;4352;4457]);
(12925,Tag_circle,[4364;4462;4363;4468]);
(12926,Tag_circle,[4363;4462]);
(12928,Tag_circle,[19968]);
(12929,Tag_circle,[20108]);
(12930,Tag_circle,[19977]);
(12931,Tag_circle,[22235]);
(12932,Tag_circle,[20116]);
(12933,Tag_circle,[20845]);
(12934,Tag_circle,[19971]);
(12935,Tag_circle,[20843]);
(12936,Tag_circle,[20061]);
(12937,Tag_circle,[21313]);
(12938,Tag_circle,[26376]);
(12939,Tag_circle,[28779]);
(12940,Tag_circle,[27700]);
(12941,Tag_circle,[26408]);
(12942,Tag_circle,[37329]);
(12943,Tag_circle,[22303]);
(12944,Tag_circle,[26085]);
(12945,Tag_circle,[26666]);
(12946,Tag_circle,[26377]);
(12947,Tag_circle,[31038]);
(12948,Tag_circle,[21517]);
(12949,Tag_circle,[29305]);
(12950,Tag_circle,[36001]);
(12951,Tag_circle,[31069]);
(12952,Tag_circle,[21172]);
(12953,Tag_circle,[31192]);
(12954,Tag_circle,[30007]);
(12955,Tag_circle,[22899]);
(12956,Tag_circle,[36969]);
(12957,Tag_circle,[20778]);
(12958,Tag_circle,[21360]);
(12959,Tag_circle,[27880]);
(12960,Tag_circle,[38917]);
(12961,Tag_circle,[20241]);
(12962,Tag_circle,[20889]);
(12963,Tag_circle,[27491]);
(12964,Tag_circle,[19978]);
(12965,Tag_circle,[20013]);
(12966,Tag_circle,[19979]);
(12967,Tag_circle,[24038]);
(12968,Tag_circle,[21491]);
(12969,Tag_circle,[21307]);
(12970,Tag_circle,[23447]);
(12971,Tag_circle,[23398]);
(12972,Tag_circle,[30435]);
(12973,Tag_circle,[20225]);
(12974,Tag_circle,[36039]);
(12975,Tag_circle,[21332]);
(12976,Tag_circle,[22812]);
(12977,Tag_circle,[51;54]);
(12978,Tag_circle,[51;55]);
(12979,Tag_circle,[51;56]);
(12980,Tag_circle,[51;57]);
(12981,Tag_circle,[52;48]);
(12982,Tag_circle,[52;49]);
(12983,Tag_circle,[52;50]);
(12984,Tag_circle,[52;51]);
(12985,Tag_circle,[52;52]);
(12986,Tag_circle,[52;53]);
(12987,Tag_circle,[52;54]);
(12988,Tag_circle,[52;55]);
(12989,Tag_circle,[52;56]);
(12990,Tag_circle,[52;57]);
(12991,Tag_circle,[53;48]);
(12992,Tag_compat,[49;26376]);
(12993,Tag_compat,[50;26376]);
(12994,Tag_compat,[51;26376]);
(12995,Tag_compat,[52;26376]);
(12996,Tag_compat,[53;26376]);
(12997,Tag_compat,[54;26376]);
(12998,Tag_compat,[55;26376]);
(12999,Tag_compat,[56;26376]);
(13000,Tag_compat,[57;26376]);
(13001,Tag_compat,[49;48;26376]);
(13002,Tag_compat,[49;49;26376]);
(13003,Tag_compat,[49;50;26376]);
(13004,Tag_square,[72;103]);
(13005,Tag_square,[101;114;103]);
(13006,Tag_square,[101;86]);
(13007,Tag_square,[76;84;68]);
(13008,Tag_circle,[12450]);
(13009,Tag_circle,[12452]);
(13010,Tag_circle,[12454]);
(13011,Tag_circle,[12456]);
(13012,Tag_circle,[12458]);
(13013,Tag_circle,[12459]);
(13014,Tag_circle,[12461]);
(13015,Tag_circle,[12463]);
(13016,Tag_circle,[12465]);
(13017,Tag_circle,[12467]);
(13018,Tag_circle,[12469]);
(13019,Tag_circle,[12471]);
(13020,Tag_circle,[12473]);
(13021,Tag_circle,[12475]);
(13022,Tag_circle,[12477]);
(13023,Tag_circle,[12479]);
(13024,Tag_circle,[12481]);
(13025,Tag_circle,[12484]);
(13026,Tag_circle,[12486]);
(13027,Tag_circle,[12488]);
(13028,Tag_circle,[12490]);
(13029,Tag_circle,[12491]);
(13030,Tag_circle,[12492]);
(13031,Tag_circle,[12493]);
(13032,Tag_circle,[12494]);
(13033,Tag_circle,[12495]);
(13034,Tag_circle,[12498]);
(13035,Tag_circle,[12501]);
(13036,Tag_circle,[12504]);
(13037,Tag_circle,[12507]);
(13038,Tag_circle,[12510]);
(13039,Tag_circle,[12511]);
(13040,Tag_circle,[12512]);
(13041,Tag_circle,[12513]);
(13042,Tag_circle,[12514]);
(13043,Tag_circle,[12516]);
(13044,Tag_circle,[12518]);
(13045,Tag_circle,[12520]);
(13046,Tag_circle,[12521]);
(13047,Tag_circle,[12522]);
(13048,Tag_circle,[12523]);
(13049,Tag_circle,[12524]);
(13050,Tag_circle,[12525]);
(13051,Tag_circle,[12527]);
(13052,Tag_circle,[12528]);
(13053,Tag_circle,[12529]);
(13054,Tag_circle,[12530]);
(13056,Tag_square,[12450;12497;12540;12488]);
(13057,Tag_square,[12450;12523;12501;12449]);
(13058,Tag_square,[12450;12531;12506;12450]);
(13059,Tag_square,[12450;12540;12523]);
(13060,Tag_square,[12452;12491;12531;12464]);
(13061,Tag_square,[12452;12531;12481]);
(13062,Tag_square,[12454;12457;12531]);
(13063,Tag_square,[12456;12473;12463;12540;12489]);
(13064,Tag_square,[12456;12540;12459;12540]);
(13065,Tag_square,[12458;12531;12473]);
(13066,Tag_square,[12458;12540;12512]);
(13067,Tag_square,[12459;12452;12522]);
(13068,Tag_square,[12459;12521;12483;12488]);
(13069,Tag_square,[12459;12525;12522;12540]);
(13070,Tag_square,[12460;12525;12531]);
(13071,Tag_square,[12460;12531;12510]);
(13072,Tag_square,[12462;12460]);
(13073,Tag_square,[12462;12491;12540]);
(13074,Tag_square,[12461;12517;12522;12540]);
(13075,Tag_square,[12462;12523;12480;12540]);
(13076,Tag_square,[12461;12525]);
(13077,Tag_square,[12461;12525;12464;12521;12512]);
(13078,Tag_square,[12461;12525;12513;12540;12488;12523]);
(13079,Tag_square,[12461;12525;12527;12483;12488]);
(13080,Tag_square,[12464;12521;12512]);
(13081,Tag_square,[12464;12521;12512;12488;12531]);
(13082,Tag_square,[12463;12523;12476;12452;12525]);
(13083,Tag_square,[12463;12525;12540;12493]);
(13084,Tag_square,[12465;12540;12473]);
(13085,Tag_square,[12467;12523;12490]);
(13086,Tag_square,[12467;12540;12509]);
(13087,Tag_square,[12469;12452;12463;12523]);
(13088,Tag_square,[12469;12531;12481;12540;12512]);
(13089,Tag_square,[12471;12522;12531;12464]);
(13090,Tag_square,[12475;12531;12481]);
(13091,Tag_square,[12475;12531;12488]);
(13092,Tag_square,[12480;12540;12473]);
(13093,Tag_square,[12487;12471]);
(13094,Tag_square,[12489;12523]);
(13095,Tag_square,[12488;12531]);
(13096,Tag_square,[12490;12494]);
(13097,Tag_square,[12494;12483;12488]);
(13098,Tag_square,[12495;12452;12484]);
(13099,Tag_square,[12497;12540;12475;12531;12488]);
(13100,Tag_square,[12497;12540;12484]);
(13101,Tag_square,[12496;12540;12524;12523]);
(13102,Tag_square,[12500;12450;12473;12488;12523]);
(13103,Tag_square,[12500;12463;12523]);
(13104,Tag_square,[12500;12467]);
(13105,Tag_square,[12499;12523]);
(13106,Tag_square,[12501;12449;12521;12483;12489]);
(13107,Tag_square,[12501;12451;12540;12488]);
(13108,Tag_square,[12502;12483;12471;12455;12523]);
(13109,Tag_square,[12501;12521;12531]);
(13110,Tag_square,[12504;12463;12479;12540;12523]);
(13111,Tag_square,[12506;12477]);
(13112,Tag_square,[12506;12491;12498]);
(13113,Tag_square,[12504;12523;12484]);
(13114,Tag_square,[12506;12531;12473]);
(13115,Tag_square,[12506;12540;12472]);
(13116,Tag_square,[12505;12540;12479]);
(13117,Tag_square,[12509;12452;12531;12488]);
(13118,Tag_square,[12508;12523;12488]);
(13119,Tag_square,[12507;12531]);
(13120,Tag_square,[12509;12531;12489]);
(13121,Tag_square,[12507;12540;12523]);
(13122,Tag_square,[12507;12540;12531]);
(13123,Tag_square,[12510;12452;12463;12525]);
(13124,Tag_square,[12510;12452;12523]);
(13125,Tag_square,[12510;12483;12495]);
(13126,Tag_square,[12510;12523;12463]);
(13127,Tag_square,[12510;12531;12471;12519;12531]);
(13128,Tag_square,[12511;12463;12525;12531]);
(13129,Tag_square,[12511;12522]);
(13130,Tag_square,[12511;12522;12496;12540;12523]);
(13131,Tag_square,[12513;12460]);
(13132,Tag_square,[12513;12460;12488;12531]);
(13133,Tag_square,[12513;12540;12488;12523]);
(13134,Tag_square,[12516;12540;12489]);
(13135,Tag_square,[12516;12540;12523]);
(13136,Tag_square,[12518;12450;12531]);
(13137,Tag_square,[12522;12483;12488;12523]);
(13138,Tag_square,[12522;12521]);
(13139,Tag_square,[12523;12500;12540]);
(13140,Tag_square,[12523;12540;12502;12523]);
(13141,Tag_square,[12524;12512]);
(13142,Tag_square,[12524;12531;12488;12466;12531]);
(13143,Tag_square,[12527;12483;12488]);
(13144,Tag_compat,[48;28857]);
(13145,Tag_compat,[49;28857]);
(13146,Tag_compat,[50;28857]);
(13147,Tag_compat,[51;28857]);
(13148,Tag_compat,[52;28857]);
(13149,Tag_compat,[53;28857]);
(13150,Tag_compat,[54;28857]);
(13151,Tag_compat,[55;28857]);
(13152,Tag_compat,[56;28857]);
(13153,Tag_compat,[57;28857]);
(13154,Tag_compat,[49;48;28857]);
(13155,Tag_compat,[49;49;28857]);
(13156,Tag_compat,[49;50;28857]);
(13157,Tag_compat,[49;51;28857]);
(13158,Tag_compat,[49;52;28857]);
(13159,Tag_compat,[49;53;28857]);
(13160,Tag_compat,[49;54;28857]);
(13161,Tag_compat,[49;55;28857]);
(13162,Tag_compat,[49;56;28857]);
(13163,Tag_compat,[49;57;28857]);
(13164,Tag_compat,[50;48;28857]);
(13165,Tag_compat,[50;49;28857]);
(13166,Tag_compat,[50;50;28857]);
(13167,Tag_compat,[50;51;28857]);
(13168,Tag_compat,[50;52;28857]);
(13169,Tag_square,[104;80;97]);
(13170,Tag_square,[100;97]);
(13171,Tag_square,[65;85]);
(13172,Tag_square,[98;97;114]);
(13173,Tag_square,[111;86]);
(13174,Tag_square,[112;99]);
(13175,Tag_square,[100;109]);
(13176,Tag_square,[100;109;178]);
(13177,Tag_square,[100;109;179]);
(13178,Tag_square,[73;85]);
(13179,Tag_square,[24179;25104]);
(13180,Tag_square,[26157;21644]);
(13181,Tag_square,[22823;27491]);
(13182,Tag_square,[26126;27835]);
(13183,Tag_square,[26666;24335;20250;31038]);
(13184,Tag_square,[112;65]);
(13185,Tag_square,[110;65]);
(13186,Tag_square,[956;65]);
(13187,Tag_square,[109;65]);
(13188,Tag_square,[107;65]);
(13189,Tag_square,[75;66]);
(13190,Tag_square,[77;66]);
(13191,Tag_square,[71;66]);
(13192,Tag_square,[99;97;108]);
(13193,Tag_square,[107;99;97;108]);
(13194,Tag_square,[112;70]);
(13195,Tag_square,[110;70]);
(13196,Tag_square,[956;70]);
(13197,Tag_square,[956;103]);
(13198,Tag_square,[109;103]);
(13199,Tag_square,[107;103]);
(13200,Tag_square,[72;122]);
(13201,Tag_square,[107;72;122]);
(13202,Tag_square,[77;72;122]);
(13203,Tag_square,[71;72;122]);
(13204,Tag_square,[84;72;122]);
(13205,Tag_square,[956;8467]);
(13206,Tag_square,[109;8467]);
(13207,Tag_square,[100;8467]);
(13208,Tag_square,[107;8467]);
(13209,Tag_square,[102;109]);
(13210,Tag_square,[110;109]);
(13211,Tag_square,[956;109]);
(13212,Tag_square,[109;109]);
(13213,Tag_square,[99;109]);
(13214,Tag_square,[107;109]);
(13215,Tag_square,[109;109;178]);
(13216,Tag_square,[99;109;178]);
(13217,Tag_square,[109;178]);
(13218,Tag_square,[107;109;178]);
(13219,Tag_square,[109;109;179]);
(13220,Tag_square,[99;109;179]);
(13221,Tag_square,[109;179]);
(13222,Tag_square,[107;109;179]);
(13223,Tag_square,[109;8725;115]);
(13224,Tag_square,[109;8725;115;178]);
(13225,Tag_square,[80;97]);
(13226,Tag_square,[107;80;97]);
(13227,Tag_square,[77;80;97]);
(13228,Tag_square,[71;80;97]);
(13229,Tag_square,[114;97;100]);
(13230,Tag_square,[114;97;100;8725;115]);
(13231,Tag_square,[114;97;100;8725;115;178]);
(13232,Tag_square,[112;115]);
(13233,Tag_square,[110;115]);
(13234,Tag_square,[956;115]);
(13235,Tag_square,[109;115]);
(13236,Tag_square,[112;86]);
(13237,Tag_square,[110;86]);
(13238,Tag_square,[956;86]);
(13239,Tag_square,[109;86]);
(13240,Tag_square,[107;86]);
(13241,Tag_square,[77;86]);
(13242,Tag_square,[112;87]);
(13243,Tag_square,[110;87]);
(13244,Tag_square,[956;87]);
(13245,Tag_square,[109;87]);
(13246,Tag_square,[107;87]);
(13247,Tag_square,[77;87]);
(13248,Tag_square,[107;937]);
(13249,Tag_square,[77;937]);
(13250,Tag_square,[97;46;109;46]);
(13251,Tag_square,[66;113]);
(13252,Tag_square,[99;99]);
(13253,Tag_square,[99;100]);
(13254,Tag_square,[67;8725;107;103]);
(13255,Tag_square,[67;111;46]);
(13256,Tag_square,[100;66]);
(13257,Tag_square,[71;121]);
(13258,Tag_square,[104;97]);
(13259,Tag_square,[72;80]);
(13260,Tag_square,[105;110]);
(13261,Tag_square,[75;75]);
(13262,Tag_square,[75;77]);
(13263,Tag_square,[107;116]);
(13264,Tag_square,[108;109]);
(13265,Tag_square,[108;110]);
(13266,Tag_square,[108;111;103]);
(13267,Tag_square,[108;120]);
(13268,Tag_square,[109;98]);
(13269,Tag_square,[109;105;108]);
(13270,Tag_square,[109;111;108]);
(13271,Tag_square,[80;72]);
(13272,Tag_square,[112;46;109;46]);
(13273,Tag_square,[80;80;77]);
(13274,Tag_square,[80;82]);
(13275,Tag_square,[115;114]);
(13276,Tag_square,[83;118]);
(13277,Tag_square,[87;98]);
(13278,Tag_square,[86;8725;109]);
(13279,Tag_square,[65;8725;109]);
(13280,Tag_compat,[49;26085]);
(13281,Tag_compat,[50;26085]);
(13282,Tag_compat,[51;26085]);
(13283,Tag_compat,[52;26085]);
(13284,Tag_compat,[53;26085]);
(13285,Tag_compat,[54;26085]);
(13286,Tag_compat,[55;26085]);
(13287,Tag_compat,[56;26085]);
(13288,Tag_compat,[57;26085]);
(13289,Tag_compat,[49;48;26085]);
(13290,Tag_compat,[49;49;26085]);
(13291,Tag_compat,[49;50;26085]);
(13292,Tag_compat,[49;51;26085]);
(13293,Tag_compat,[49;52;26085]);
(13294,Tag_compat,[49;53;26085]);
(13295,Tag_compat,[49;54;26085]);
(13296,Tag_compat,[49;55;26085]);
(13297,Tag_compat,[49;56;26085]);
(13298,Tag_compat,[49;57;26085]);
(13299,Tag_compat,[50;48;26085]);
(13300,Tag_compat,[50;49;26085]);
(13301,Tag_compat,[50;50;26085]);
(13302,Tag_compat,[50;51;26085]);
(13303,Tag_compat,[50;52;26085]);
(13304,Tag_compat,[50;53;26085]);
(13305,Tag_compat,[50;54;26085]);
(13306,Tag_compat,[50;55;26085]);
(13307,Tag_compat,[50;56;26085]);
(13308,Tag_compat,[50;57;26085]);
(13309,Tag_compat,[51;48;26085]);
(13310,Tag_compat,[51;49;26085]);
(13311,Tag_square,[103;97;108]);
(42652,Tag_super,[1098]);
(42653,Tag_super,[1100]);
(42864,Tag_super,[42863]);
(43000,Tag_super,[294]);
(43001,Tag_super,[339]);
(43868,Tag_super,[42791]);
(43869,Tag_super,[43831]);
(43870,Tag_super,[619]);
(43871,Tag_super,[43858]);
(63744,Canonical,[35912]);
(63745,Canonical,[26356]);
(63746,Canonical,[36554]);
(63747,Canonical,[36040]);
(63748,Canonical,[28369]);
(63749,Canonical,[20018]);
(63750,Canonical,[21477]);
(63751,Canonical,[40860]);
(63752,Canonical,[40860]);
(63753,Canonical,[22865]);
(63754,Canonical,[37329]);
(63755,Canonical,[21895]);
(63756,Canonical,[22856]);
(63757,Canonical,[25078]);
(63758,Canonical,[30313]);
(63759,Canonical,[32645]);
(63760,Canonical,[34367]);
(63761,Canonical,[34746]);
(63762,Canonical,[35064]);
(63763,Canonical,[37007]);
(63764,Canonical,[27138]);
(63765,Canonical,[27931]);
(63766,Canonical,[28889]);
(63767,Canonical,[29662]);
(63768,Canonical,[33853]);
(63769,Canonical,[37226]);
(63770,Canonical,[39409]);
(63771,Canonical,[20098]);
(63772,Canonical,[21365]);
(63773,Canonical,[27396]);
(63774,Canonical,[29211]);
(63775,Canonical,[34349]);
(63776,Canonical,[40478]);
(63777,Canonical,[23888]);
(63778,Canonical,[28651]);
(63779,Canonical,[34253]);
(63780,Canonical,[35172]);
(63781,Canonical,[25289]);
(63782,Canonical,[33240]);
(63783,Canonical,[34847]);
(63784,Canonical,[24266]);
(63785,Canonical,[26391]);
(63786,Canonical,[28010]);
(63787,Canonical,[29436]);
(63788,Canonical,[37070]);
(63789,Canonical,[20358]);
(63790,Canonical,[20919]);
(63791,Canonical,[21214]);
(63792,Canonical,[25796]);
(63793,Canonical,[27347]);
(63794,Canonical,[29200]);
(63795,Canonical,[30439]);
(63796,Canonical,[32769]);
(63797,Canonical,[34310]);
(63798,Canonical,[34396]);
(63799,Canonical,[36335]);
(63800,Canonical,[38706]);
(63801,Canonical,[39791]);
(63802,Canonical,[40442]);
(63803,Canonical,[30860]);
(63804,Canonical,[31103]);
(63805,Canonical,[32160]);
(63806,Canonical,[33737]);
(63807,Canonical,[37636]);
(63808,Canonical,[40575]);
(63809,Canonical,[35542]);
(63810,Canonical,[22751]);
(63811,Canonical,[24324]);
(63812,Canonical,[31840]);
(63813,Canonical,[32894]);
(63814,Canonical,[29282]);
(63815,Canonical,[30922]);
(63816,Canonical,[36034]);
(63817,Canonical,[38647]);
(63818,Canonical,[22744]);
(63819,Canonical,[23650]);
(63820,Canonical,[27155]);
(63821,Canonical,[28122]);
(63822,Canonical,[28431]);
(63823,Canonical,[32047]);
(63824,Canonical,[32311]);
(63825,Canonical,[38475]);
(63826,Canonical,[21202]);
(63827,Canonical,[32907]);
(63828,Canonical,[20956]);
(63829,Canonical,[20940]);
(63830,Canonical,[31260]);
(63831,Canonical,[32190]);
(63832,Canonical,[33777]);
(63833,Canonical,[38517]);
(63834,Canonical,[35712]);
(63835,Canonical,[25295]);
(63836,Canonical,[27138]);
(63837,Canonical,[35582]);
(63838,Canonical,[20025]);
(63839,Canonical,[23527]);
(63840,Canonical,[24594]);
(63841,Canonical,[29575]);
(63842,Canonical,[30064]);
(63843,Canonical,[21271]);
(63844,Canonical,[30971]);
(63845,Canonical,[20415]);
(63846,Canonical,[24489]);
(63847,Canonical,[19981]);
(63848,Canonical,[27852]);
(63849,Canonical,[25976]);
(63850,Canonical,[32034]);
(63851,Canonical,[21443]);
(63852,Canonical,[22622]);
(63853,Canonical,[30465]);
(63854,Canonical,[33865]);
(63855,Canonical,[35498]);
(63856,Canonical,[27578]);
(63857,Canonical,[36784]);
(63858,Canonical,[27784]);
(63859,Canonical,[25342]);
(63860,Canonical,[33509]);
(63861,Canonical,[25504]);
(63862,Canonical,[30053]);
(63863,Canonical,[20142]);
(63864,Canonical,[20841]);
(63865,Canonical,[20937]);
(63866,Canonical,[26753]);
(63867,Canonical,[31975]);
(63868,Canonical,[33391]);
(63869,Canonical,[35538]);
(63870,Canonical,[37327]);
(63871,Canonical,[21237]);
(63872,Canonical,[21570]);
(63873,Canonical,[22899]);
(63874,Canonical,[24300]);
(63875,Canonical,[26053]);
(63876,Canonical,[28670]);
(63877,Canonical,[31018]);
(63878,Canonical,[38317]);
(63879,Canonical,[39530]);
(63880,Canonical,[40599]);
(63881,Canonical,[40654]);
(63882,Canonical,[21147]);
(63883,Canonical,[26310]);
(63884,Canonical,[27511]);
(63885,Canonical,[36706]);
(63886,Canonical,[24180]);
(63887,Canonical,[24976]);
(63888,Canonical,[25088]);
(63889,Canonical,[25754]);
(63890,Canonical,[28451]);
(63891,Canonical,[29001]);
(63892,Canonical,[29833]);
(63893,Canonical,[31178]);
(63894,Canonical,[32244]);
(63895,Canonical,[32879]);
(63896,Canonical,[36646]);
(63897,Canonical,[34030]);
(63898,Canonical,[36899]);
(63899,Canonical,[37706]);
(63900,Canonical,[21015]);
(63901,Canonical,[21155]);
(63902,Canonical,[21693]);
(63903,Canonical,[28872]);
(63904,Canonical,[35010]);
(63905,Canonical,[35498]);
(63906,Canonical,[24265]);
(63907,Canonical,[24565]);
(63908,Canonical,[25467]);
(63909,Canonical,[27566]);
(63910,Canonical,[31806]);
(63911,Canonical,[29557]);
(63912,Canonical,[20196]);
(63913,Canonical,[22265]);
(63914,Canonical,[23527]);
(63915,Canonical,[23994]);
(63916,Canonical,[24604]);
(63917,Canonical,[29618]);
(63918,Canonical,[29801]);
(63919,Canonical,[32666]);
(63920,Canonical,[32838]);
(63921,Canonical,[37428]);
(63922,Canonical,[38646]);
(63923,Canonical,[38728]);
(63924,Canonical,[38936]);
(63925,Canonical,[20363]);
(63926,Canonical,[31150]);
(63927,Canonical,[37300]);
(63928,Canonical,[38584]);
(63929,Canonical,[24801]);
(63930,Canonical,[20102]);
(63931,Canonical,[20698]);
(63932,Canonical,[23534]);
(63933,Canonical,[23615]);
(63934,Canonical,[26009]);
(63935,Canonical,[27138]);
(63936,Canonical,[29134]);
(63937,Canonical,[30274]);
(63938,Canonical,[34044]);
(63939,Canonical,[36988]);
(63940,Canonical,[40845]);
(63941,Canonical,[26248]);
(63942,Canonical,[38446]);
(63943,Canonical,[21129]);
(63944,Canonical,[26491]);
(63945,Canonical,[26611]);
(63946,Canonical,[27969]);
(63947,Canonical,[28316]);
(63948,Canonical,[29705]);
(63949,Canonical,[30041]);
(63950,Canonical,[30827]);
(63951,Canonical,[32016]);
(63952,Canonical,[39006]);
(63953,Canonical,[20845]);
(63954,Canonical,[25134]);
(63955,Canonical,[38520]);
(63956,Canonical,[20523]);
(63957,Canonical,[23833]);
(63958,Canonical,[28138]);
(63959,Canonical,[36650]);
(63960,Canonical,[24459]);
(63961,Canonical,[24900]);
(63962,Canonical,[26647]);
(63963,Canonical,[29575]);
(63964,Canonical,[38534]);
(63965,Canonical,[21033]);
(63966,Canonical,[21519]);
(63967,Canonical,[23653]);
(63968,Canonical,[26131]);
(63969,Canonical,[26446]);
(63970,Canonical,[26792]);
(63971,Canonical,[27877]);
(63972,Canonical,[29702]);
(63973,Canonical,[30178]);
(63974,Canonical,[32633]);
(63975,Canonical,[35023]);
(63976,Canonical,[35041]);
(63977,Canonical,[37324]);
(63978,Canonical,[38626]);
(63979,Canonical,[21311]);
(63980,Canonical,[28346]);
(63981,Canonical,[21533]);
(63982,Canonical,[29136]);
(63983,Canonical,[29848]);
(63984,Canonical,[34298]);
(63985,Canonical,[38563]);
(63986,Canonical,[40023]);
(63987,Canonical,[40607]);
(63988,Canonical,[26519]);
(63989,Canonical,[28107]);
(63990,Canonical,[33256]);
(63991,Canonical,[31435]);
(63992,Canonical,[31520]);
(63993,Canonical,[31890]);
(63994,Canonical,[29376]);
(63995,Canonical,[28825]);
(63996,Canonical,[35672]);
(63997,Canonical,[20160]);
(63998,Canonical,[33590]);
(63999,Canonical,[21050]);
(64000,Canonical,[20999]);
(64001,Canonical,[24230]);
(64002,Canonical,[25299]);
(64003,Canonical,[31958]);
(64004,Canonical,[23429]);
(64005,Canonical,[27934]);
(64006,Canonical,[26292]);
(64007,Canonical,[36667]);
(64008,Canonical,[34892]);
(64009,Canonical,[38477]);
(64010,Canonical,[35211]);
(64011,Canonical,[24275]);
(64012,Canonical,[20800]);
(64013,Canonical,[21952]);
(64016,Canonical,[22618]);
(64018,Canonical,[26228]);
(64021,Canonical,[20958]);
(64022,Canonical,[29482]);
(64023,Canonical,[30410]);
(64024,Canonical,[31036]);
(64025,Canonical,[31070]);
(64026,Canonical,[31077]);
(64027,Canonical,[31119]);
(64028,Canonical,[38742]);
(64029,Canonical,[31934]);
(64030,Canonical,[32701]);
(64032,Canonical,[34322]);
(64034,Canonical,[35576]);
(64037,Canonical,[36920]);
(64038,Canonical,[37117]);
(64042,Canonical,[39151]);
(64043,Canonical,[39164]);
(64044,Canonical,[39208]);
(64045,Canonical,[40372]);
(64046,Canonical,[37086]);
(64047,Canonical,[38583]);
(64048,Canonical,[20398]);
(64049,Canonical,[20711]);
(64050,Canonical,[20813]);
(64051,Canonical,[21193]);
(64052,Canonical,[21220]);
(64053,Canonical,[21329]);
(64054,Canonical,[21917]);
(64055,Canonical,[22022]);
(64056,Canonical,[22120]);
(64057,Canonical,[22592]);
(64058,Canonical,[22696]);
(64059,Canonical,[23652]);
(64060,Canonical,[23662]);
(64061,Canonical,[24724]);
(64062,Canonical,[24936]);
(64063,Canonical,[24974]);
(64064,Canonical,[25074]);
(64065,Canonical,[25935]);
(64066,Canonical,[26082]);
(64067,Canonical,[26257]);
(64068,Canonical,[26757]);
(64069,Canonical,[28023]);
(64070,Canonical,[28186]);
(64071,Canonical,[28450]);
(64072,Canonical,[29038]);
(64073,Canonical,[29227]);
(64074,Canonical,[29730]);
(64075,Canonical,[30865]);
(64076,Canonical,[31038]);
(64077,Canonical,[31049]);
(64078,Canonical,[31048]);
(64079,Canonical,[31056]);
(64080,Canonical,[31062]);
(64081,Canonical,[31069]);
(64082,Canonical,[31117]);
(64083,Canonical,[31118]);
(64084,Canonical,[31296]);
(64085,Canonical,[31361]);
(64086,Canonical,[31680]);
(64087,Canonical,[32244]);
(64088,Canonical,[32265]);
(64089,Canonical,[32321]);
(64090,Canonical,[32626]);
(64091,Canonical,[32773]);
(64092,Canonical,[33261]);
(64093,Canonical,[33401]);
(64094,Canonical,[33401]);
(64095,Canonical,[33879]);
(64096,Canonical,[35088]);
(64097,Canonical,[35222]);
(64098,Canonical,[35585]);
(64099,Canonical,[35641]);
(64100,Canonical,[36051]);
(64101,Canonical,[36104]);
(64102,Canonical,[36790]);
(64103,Canonical,[36920]);
(64104,Canonical,[38627]);
(64105,Canonical,[38911]);
(64106,Canonical,[38971]);
(64107,Canonical,[24693]);
(64108,Canonical,[148206]);
(64109,Canonical,[33304]);
(64112,Canonical,[20006]);
(64113,Canonical,[20917]);
(64114,Canonical,[20840]);
(64115,Canonical,[20352]);
(64116,Canonical,[20805]);
(64117,Canonical,[20864]);
(64118,Canonical,[21191]);
(64119,Canonical,[21242]);
(64120,Canonical,[21917]);
(64121,Canonical,[21845]);
(64122,Canonical,[21913]);
(64123,Canonical,[21986]);
(64124,Canonical,[22618]);
(64125,Canonical,[22707]);
(64126,Canonical,[22852]);
(64127,Canonical,[22868]);
(64128,Canonical,[23138]);
(64129,Canonical,[23336]);
(64130,Canonical,[24274]);
(64131,Canonical,[24281]);
(64132,Canonical,[24425]);
(64133,Canonical,[24493]);
(64134,Canonical,[24792]);
(64135,Canonical,[24910]);
(64136,Canonical,[24840]);
(64137,Canonical,[24974]);
(64138,Canonical,[24928]);
(64139,Canonical,[25074]);
(64140,Canonical,[25140]);
(64141,Canonical,[25540]);
(64142,Canonical,[25628]);
(64143,Canonical,[25682]);
(64144,Canonical,[25942]);
(64145,Canonical,[26228]);
(64146,Canonical,[26391]);
(64147,Canonical,[26395]);
(64148,Canonical,[26454]);
(64149,Canonical,[27513]);
(64150,Canonical,[27578]);
(64151,Canonical,[27969]);
(64152,Canonical,[28379]);
(64153,Canonical,[28363]);
(64154,Canonical,[28450]);
(64155,Canonical,[28702]);
(64156,Canonical,[29038]);
(64157,Canonical,[30631]);
(64158,Canonical,[29237]);
(64159,Canonical,[29359]);
(64160,Canonical,[29482]);
(64161,Canonical,[29809]);
(64162,Canonical,[29958]);
(64163,Canonical,[30011]);
(64164,Canonical,[30237]);
(64165,Canonical,[30239]);
(64166,Canonical,[30410]);
(64167,Canonical,[30427]);
(64168,Canonical,[30452]);
(64169,Canonical,[30538]);
(64170,Canonical,[30528]);
(64171,Canonical,[30924]);
(64172,Canonical,[31409]);
(64173,Canonical,[31680]);
(64174,Canonical,[31867]);
(64175,Canonical,[32091]);
(64176,Canonical,[32244]);
(64177,Canonical,[32574]);
(64178,Canonical,[32773]);
(64179,Canonical,[33618]);
(64180,Canonical,[33775]);
(64181,Canonical,[34681]);
(64182,Canonical,[35137]);
(64183,Canonical,[35206]);
(64184,Canonical,[35222]);
(64185,Canonical,[35519]);
(64186,Canonical,[35576]);
(64187,Canonical,[35531]);
(64188,Canonical,[35585]);
(64189,Canonical,[35582]);
(64190,Canonical,[35565]);
(64191,Canonical,[35641]);
(64192,Canonical,[35722]);
(64193,Canonical,[36104]);
(64194,Canonical,[36664]);
(64195,Canonical,[36978]);
(64196,Canonical,[37273]);
(64197,Canonical,[37494]);
(64198,Canonical,[38524]);
(64199,Canonical,[38627]);
(64200,Canonical,[38742]);
(64201,Canonical,[38875]);
(64202,Canonical,[38911]);
(64203,Canonical,[38923]);
(64204,Canonical,[38971]);
(64205,Canonical,[39698]);
(64206,Canonical,[40860]);
(64207,Canonical,[141386]);
(64208,Canonical,[141380]);
(64209,Canonical,[144341]);
(64210,Canonical,[15261]);
(64211,Canonical,[16408]);
(64212,Canonical,[16441]);
(64213,Canonical,[152137]);
(64214,Canonical,[154832]);
(64215,Canonical,[163539]);
(64216,Canonical,[40771]);
(64217,Canonical,[40846]);
(64256,Tag_compat,[102;102]);
(64257,Tag_compat,[102;105]);
(64258,Tag_compat,[102;108]);
(64259,Tag_compat,[102;102;105]);
(64260,Tag_compat,[102;102;108]);
(64261,Tag_compat,[383;116]);
(64262,Tag_compat,[115;116]);
(64275,Tag_compat,[1396;1398]);
(64276,Tag_compat,[1396;1381]);
(64277,Tag_compat,[1396;1387]);
(64278,Tag_compat,[1406;1398]);
(64279,Tag_compat,[1396;1389]);
(64285,Canonical,[1497;1460]);
(64287,Canonical,[1522;1463]);
(64288,Tag_font,[1506]);
(64289,Tag_font,[1488]);
(64290,Tag_font,[1491]);
(64291,Tag_font,[1492]);
(64292,Tag_font,[1499]);
(64293,Tag_font,[1500]);
(64294,Tag_font,[1501]);
(64295,Tag_font,[1512]);
(64296,Tag_font,[1514]);
(64297,Tag_font,[43]);
(64298,Canonical,[1513;1473]);
(64299,Canonical,[1513;1474]);
(64300,Canonical,[64329;1473]);
(64301,Canonical,[64329;1474]);
(64302,Canonical,[1488;1463]);
(64303,Canonical,[1488;1464]);
(64304,Canonical,[1488;1468]);
(64305,Canonical,[1489;1468]);
(64306,Canonical,[1490;1468]);
(64307,Canonical,[1491;1468]);
(64308,Canonical,[1492;1468]);
(64309,Canonical,[1493;1468]);
(64310,Canonical,[1494;1468]);
(64312,Canonical,[1496;1468]);
(64313,Canonical,[1497;1468]);
(64314,Canonical,[1498;1468]);
(64315,Canonical,[1499;1468]);
(64316,Canonical,[1500;1468]);
(64318,Canonical,[1502;1468]);
(64320,Canonical,[1504;1468]);
(64321,Canonical,[1505;1468]);
(64323,Canonical,[1507;1468]);
(64324,Canonical,[1508;1468]);
(64326,Canonical,[1510;1468]);
(64327,Canonical,[1511;1468]);
(64328,Canonical,[1512;1468]);
(64329,Canonical,[1513;1468]);
(64330,Canonical,[1514;1468]);
(64331,Canonical,[1493;1465]);
(64332,Canonical,[1489;1471]);
(64333,Canonical,[1499;1471]);
(64334,Canonical,[1508;1471]);
(64335,Tag_compat,[1488;1500]);
(64336,Tag_isolated,[1649]);
(64337,Tag_final,[1649]);
(64338,Tag_isolated,[1659]);
(64339,Tag_final,[1659]);
(64340,Tag_initial,[1659]);
(64341,Tag_medial,[1659]);
(64342,Tag_isolated,[1662]);
(64343,Tag_final,[1662]);
(64344,Tag_initial,[1662]);
(64345,Tag_medial,[1662]);
(64346,Tag_isolated,[1664]);
(64347,Tag_final,[1664]);
(64348,Tag_initial,[1664]);
(64349,Tag_medial,[1664]);
(64350,Tag_isolated,[1658]);
(64351,Tag_final,[1658]);
(64352,Tag_initial,[1658]);
(64353,Tag_medial,[1658]);
(64354,Tag_isolated,[1663]);
(64355,Tag_final,[1663]);
(64356,Tag_initial,[1663]);
(64357,Tag_medial,[1663]);
(64358,Tag_isolated,[1657]);
(64359,Tag_final,[1657]);
(64360,Tag_initial,[1657]);
(64361,Tag_medial,[1657]);
(64362,Tag_isolated,[1700]);
(64363,Tag_final,[1700]);
(64364,Tag_initial,[1700]);
(64365,Tag_medial,[1700]);
(64366,Tag_isolated,[1702]);
(64367,Tag_final,[1702]);
(64368,Tag_initial,[1702]);
(64369,Tag_medial,[1702]);
(64370,Tag_isolated,[1668]);
(64371,Tag_final,[1668]);
(64372,Tag_initial,[1668]);
(64373,Tag_medial,[1668]);
(64374,Tag_isolated,[1667]);
(64375,Tag_final,[1667]);
(64376,Tag_initial,[1667]);
(64377,Tag_medial,[1667]);
(64378,Tag_isolated,[1670]);
(64379,Tag_final,[1670]);
(64380,Tag_initial,[1670]);
(64381,Tag_medial,[1670]);
(64382,Tag_isolated,[1671]);
(64383,Tag_final,[1671]);
(64384,Tag_initial,[1671]);
(64385,Tag_medial,[1671]);
(64386,Tag_isolated,[1677]);
(64387,Tag_final,[1677]);
(64388,Tag_isolated,[1676]);
(64389,Tag_final,[1676]);
(64390,Tag_isolated,[1678]);
(64391,Tag_final,[1678]);
(64392,Tag_isolated,[1672]);
(64393,Tag_final,[1672]);
(64394,Tag_isolated,[1688]);
(64395,Tag_final,[1688]);
(64396,Tag_isolated,[1681]);
(64397,Tag_final,[1681]);
(64398,Tag_isolated,[1705]);
(64399,Tag_final,[1705]);
(64400,Tag_initial,[1705]);
(64401,Tag_medial,[1705]);
(64402,Tag_isolated,[1711]);
(64403,Tag_final,[1711]);
(64404,Tag_initial,[1711]);
(64405,Tag_medial,[1711]);
(64406,Tag_isolated,[1715]);
(64407,Tag_final,[1715]);
(64408,Tag_initial,[1715]);
(64409,Tag_medial,[1715]);
(64410,Tag_isolated,[1713]);
(64411,Tag_final,[1713]);
(64412,Tag_initial,[1713]);
(64413,Tag_medial,[1713]);
(64414,Tag_isolated,[1722]);
(64415,Tag_final,[1722]);
(64416,Tag_isolated,[1723]);
(64417,Tag_final,[1723]);
(64418,Tag_initial,[1723]);
(64419,Tag_medial,[1723]);
(64420,Tag_isolated,[1728]);
(64421,Tag_final,[1728]);
(64422,Tag_isolated,[1729]);
(64423,Tag_final,[1729]);
(64424,Tag_initial,[1729]);
(64425,Tag_medial,[1729]);
(64426,Tag_isolated,[1726]);
(64427,Tag_final,[1726]);
(64428,Tag_initial,[1726]);
(64429,Tag_medial,[1726]);
(64430,Tag_isolated,[1746]);
(64431,Tag_final,[1746]);
(64432,Tag_isolated,[1747]);
(64433,Tag_final,[1747]);
(64467,Tag_isolated,[1709]);
(64468,Tag_final,[1709]);
(64469,Tag_initial,[1709]);
(64470,Tag_medial,[1709]);
(64471,Tag_isolated,[1735]);
(64472,Tag_final,[1735]);
(64473,Tag_isolated,[1734]);
(64474,Tag_final,[1734]);
(64475,Tag_isolated,[1736]);
(64476,Tag_final,[1736]);
(64477,Tag_isolated,[1655]);
(64478,Tag_isolated,[1739]);
(64479,Tag_final,[1739]);
(64480,Tag_isolated,[1733]);
(64481,Tag_final,[1733]);
(64482,Tag_isolated,[1737]);
(64483,Tag_final,[1737]);
(64484,Tag_isolated,[1744]);
(64485,Tag_final,[1744]);
(64486,Tag_initial,[1744]);
(64487,Tag_medial,[1744]);
(64488,Tag_initial,[1609]);
(64489,Tag_medial,[1609]);
(64490,Tag_isolated,[1574;1575]);
(64491,Tag_final,[1574;1575]);
(64492,Tag_isolated,[1574;1749]);
(64493,Tag_final,[1574;1749]);
(64494,Tag_isolated,[1574;1608]);
(64495,Tag_final,[1574;1608]);
(64496,Tag_isolated,[1574;1735]);
(64497,Tag_final,[1574;1735]);
(64498,Tag_isolated,[1574;1734]);
(64499,Tag_final,[1574;1734]);
(64500,Tag_isolated,[1574;1736]);
(64501,Tag_final,[1574;1736]);
(64502,Tag_isolated,[1574;1744]);
(64503,Tag_final,[1574;1744]);
(64504,Tag_initial,[1574;1744]);
(64505,Tag_isolated,[1574;1609]);
(64506,Tag_final,[1574;1609]);
(64507,Tag_initial,[1574;1609]);
(64508,Tag_isolated,[1740]);
(64509,Tag_final,[1740]);
(64510,Tag_initial,[1740]);
(64511,Tag_medial,[1740]);
(64512,Tag_isolated,[1574;1580]);
(64513,Tag_isolated,[1574;1581]);
(64514,Tag_isolated,[1574;1605]);
(64515,Tag_isolated,[1574;1609]);
(64516,Tag_isolated,[1574;1610]);
(64517,Tag_isolated,[1576;1580]);
(64518,Tag_isolated,[1576;1581]);
(64519,Tag_isolated,[1576;1582]);
(64520,Tag_isolated,[1576;1605]);
(64521,Tag_isolated,[1576;1609]);
(64522,Tag_isolated,[1576;1610]);
(64523,Tag_isolated,[1578;1580]);
(64524,Tag_isolated,[1578;1581]);
(64525,Tag_isolated,[1578;1582]);
(64526,Tag_isolated,[1578;1605]);
(64527,Tag_isolated,[1578;1609]);
(64528,Tag_isolated,[1578;1610]);
(64529,Tag_isolated,[1579;1580]);
(64530,Tag_isolated,[1579;1605]);
(64531,Tag_isolated,[1579;1609]);
(64532,Tag_isolated,[1579;1610]);
(64533,Tag_isolated,[1580;1581]);
(64534,Tag_isolated,[1580;1605]);
(64535,Tag_isolated,[1581;1580]);
(64536,Tag_isolated,[1581;1605]);
(64537,Tag_isolated,[1582;1580]);
(64538,Tag_isolated,[1582;1581]);
(64539,Tag_isolated,[1582;1605]);
(64540,Tag_isolated,[1587;1580]);
(64541,Tag_isolated,[1587;1581]);
(64542,Tag_isolated,[1587;1582]);
(64543,Tag_isolated,[1587;1605]);
(64544,Tag_isolated,[1589;1581]);
(64545,Tag_isolated,[1589;1605]);
(64546,Tag_isolated,[1590;1580]);
(64547,Tag_isolated,[1590;1581]);
(64548,Tag_isolated,[1590;1582]);
(64549,Tag_isolated,[1590;1605]);
(64550,Tag_isolated,[1591;1581]);
(64551,Tag_isolated,[1591;1605]);
(64552,Tag_isolated,[1592;1605]);
(64553,Tag_isolated,[1593;1580]);
(64554,Tag_isolated,[1593;1605]);
(64555,Tag_isolated,[1594;1580]);
(64556,Tag_isolated,[1594;1605]);
(64557,Tag_isolated,[1601;1580]);
(64558,Tag_isolated,[1601;1581]);
(64559,Tag_isolated,[1601;1582]);
(64560,Tag_isolated,[1601;1605]);
(64561,Tag_isolated,[1601;1609]);
(64562,Tag_isolated,[1601;1610]);
(64563,Tag_isolated,[1602;1581]);
(64564,Tag_isolated,[1602;1605]);
(64565,Tag_isolated,[1602;1609]);
(64566,Tag_isolated,[1602;1610]);
(64567,Tag_isolated,[1603;1575]);
(64568,Tag_isolated,[1603;1580]);
(64569,Tag_isolated,[1603;1581]);
(64570,Tag_isolated,[1603;1582]);
(64571,Tag_isolated,[1603;1604]);
(64572,Tag_isolated,[1603;1605]);
(64573,Tag_isolated,[1603;1609]);
(64574,Tag_isolated,[1603;1610]);
(64575,Tag_isolated,[1604;1580]);
(64576,Tag_isolated,[1604;1581]);
(64577,Tag_isolated,[1604;1582]);
(64578,Tag_isolated,[1604;1605]);
(64579,Tag_isolated,[1604;1609]);
(64580,Tag_isolated,[1604;1610]);
(64581,Tag_isolated,[1605;1580]);
(64582,Tag_isolated,[1605;1581]);
(64583,Tag_isolated,[1605;1582]);
(64584,Tag_isolated,[1605;1605]);
(64585,Tag_isolated,[1605;1609]);
(64586,Tag_isolated,[1605;1610]);
(64587,Tag_isolated,[1606;1580]);
(64588,Tag_isolated,[1606;1581]);
(64589,Tag_isolated,[1606;1582]);
(64590,Tag_isolated,[1606;1605]);
(64591,Tag_isolated,[1606;1609]);
(64592,Tag_isolated,[1606;1610]);
(64593,Tag_isolated,[1607;1580]);
(64594,Tag_isolated,[1607;1605]);
(64595,Tag_isolated,[1607;1609]);
(64596,Tag_isolated,[1607;1610]);
(64597,Tag_isolated,[1610;1580]);
(64598,Tag_isolated,[1610;1581]);
(64599,Tag_isolated,[1610;1582]);
(64600,Tag_isolated,[1610;1605]);
(64601,Tag_isolated,[1610;1609]);
(64602,Tag_isolated,[1610;1610]);
(64603,Tag_isolated,[1584;1648]);
(64604,Tag_isolated,[1585;1648]);
(64605,Tag_isolated,[1609;1648]);
(64606,Tag_isolated,[32;1612;1617]);
(64607,Tag_isolated,[32;1613;1617]);
(64608,Tag_isolated,[32;1614;1617]);
(64609,Tag_isolated,[32;1615;1617]);
(64610,Tag_isolated,[32;1616;1617]);
(64611,Tag_isolated,[32;1617;1648]);
(64612,Tag_final,[1574;1585]);
(64613,Tag_final,[1574;1586]);
(64614,Tag_final,[1574;1605]);
(64615,Tag_final,[1574;1606]);
(64616,Tag_final,[1574;1609]);
(64617,Tag_final,[1574;1610]);
(64618,Tag_final,[1576;1585]);
(64619,Tag_final,[1576;1586]);
(64620,Tag_final,[1576;1605]);
(64621,Tag_final,[1576;1606]);
(64622,Tag_final,[1576;1609]);
(64623,Tag_final,[1576;1610]);
(64624,Tag_final,[1578;1585]);
(64625,Tag_final,[1578;1586]);
(64626,Tag_final,[1578;1605]);
(64627,Tag_final,[1578;1606]);
(64628,Tag_final,[1578;1609]);
(64629,Tag_final,[1578;1610]);
(64630,Tag_final,[1579;1585]);
(64631,Tag_final,[1579;1586]);
(64632,Tag_final,[1579;1605]);
(64633,Tag_final,[1579;1606]);
(64634,Tag_final,[1579;1609]);
(64635,Tag_final,[1579;1610]);
(64636,Tag_final,[1601;1609]);
(64637,Tag_final,[1601;1610]);
(64638,Tag_final,[1602;1609]);
(64639,Tag_final,[1602;1610]);
(64640,Tag_final,[1603;1575]);
(64641,Tag_final,[1603;1604]);
(64642,Tag_final,[1603;1605]);
(64643,Tag_final,[1603;1609]);
(64644,Tag_final,[1603;1610]);
(64645,Tag_final,[1604;1605]);
(64646,Tag_final,[1604;1609]);
(64647,Tag_final,[1604;1610]);
(64648,Tag_final,[1605;1575]);
(64649,Tag_final,[1605;1605]);
(64650,Tag_final,[1606;1585]);
(64651,Tag_final,[1606;1586]);
(64652,Tag_final,[1606;1605]);
(64653,Tag_final,[1606;1606]);
(64654,Tag_final,[1606;1609]);
(64655,Tag_final,[1606;1610]);
(64656,Tag_final,[1609;1648]);
(64657,Tag_final,[1610;1585]);
(64658,Tag_final,[1610;1586]);
(64659,Tag_final,[1610;1605]);
(64660,Tag_final,[1610;1606]);
(64661,Tag_final,[1610;1609]);
(64662,Tag_final,[1610;1610]);
(64663,Tag_initial,[1574;1580]);
(64664,Tag_initial,[1574;1581]);
(64665,Tag_initial,[1574;1582]);
(64666,Tag_initial,[1574;1605]);
(64667,Tag_initial,[1574;1607]);
(64668,Tag_initial,[1576;1580]);
(64669,Tag_initial,[1576;1581]);
(64670,Tag_initial,[1576;1582]);
(64671,Tag_initial,[1576;1605]);
(64672,Tag_initial,[1576;1607]);
(64673,Tag_initial,[1578;1580]);
(64674,Tag_initial,[1578;1581]);
(64675,Tag_initial,[1578;1582]);
(64676,Tag_initial,[1578;1605]);
(64677,Tag_initial,[1578;1607]);
(64678,Tag_initial,[1579;1605]);
(64679,Tag_initial,[1580;1581]);
(64680,Tag_initial,[1580;1605]);
(64681,Tag_initial,[1581;1580]);
(64682,Tag_initial,[1581;1605]);
(64683,Tag_initial,[1582;1580]);
(64684,Tag_initial,[1582;1605]);
(64685,Tag_initial,[1587;1580]);
(64686,Tag_initial,[1587;1581]);
(64687,Tag_initial,[1587;1582]);
(64688,Tag_initial,[1587;1605]);
(64689,Tag_initial,[1589;1581]);
(64690,Tag_initial,[1589;1582]);
(64691,Tag_initial,[1589;1605]);
(64692,Tag_initial,[1590;1580]);
(64693,Tag_initial,[1590;1581]);
(64694,Tag_initial,[1590;1582]);
(64695,Tag_initial,[1590;1605]);
(64696,Tag_initial,[1591;1581]);
(64697,Tag_initial,[1592;1605]);
(64698,Tag_initial,[1593;1580]);
(64699,Tag_initial,[1593;1605]);
(64700,Tag_initial,[1594;1580]);
(64701,Tag_initial,[1594;1605]);
(64702,Tag_initial,[1601;1580]);
(64703,Tag_initial,[1601;1581]);
(64704,Tag_initial,[1601;1582]);
(64705,Tag_initial,[1601;1605]);
(64706,Tag_initial,[1602;1581]);
(64707,Tag_initial,[1602;1605]);
(64708,Tag_initial,[1603;1580]);
(64709,Tag_initial,[1603;1581]);
(64710,Tag_initial,[1603;1582]);
(64711,Tag_initial,[1603;1604]);
(64712,Tag_initial,[1603;1605]);
(64713,Tag_initial,[1604;1580]);
(64714,Tag_initial,[1604;1581]);
(64715,Tag_initial,[1604;1582]);
(64716,Tag_initial,[1604;1605]);
(64717,Tag_initial,[1604;1607]);
(64718,Tag_initial,[1605;1580]);
(64719,Tag_initial,[1605;1581]);
(64720,Tag_initial,[1605;1582]);
(64721,Tag_initial,[1605;1605]);
(64722,Tag_initial,[1606;1580]);
(64723,Tag_initial,[1606;1581]);
(64724,Tag_initial,[1606;1582]);
(64725,Tag_initial,[1606;1605]);
(64726,Tag_initial,[1606;1607]);
(64727,Tag_initial,[1607;1580]);
(64728,Tag_initial,[1607;1605]);
(64729,Tag_initial,[1607;1648]);
(64730,Tag_initial,[1610;1580]);
(64731,Tag_initial,[1610;1581]);
(64732,Tag_initial,[1610;1582]);
(64733,Tag_initial,[1610;1605]);
(64734,Tag_initial,[1610;1607]);
(64735,Tag_medial,[1574;1605]);
(64736,Tag_medial,[1574;1607]);
(64737,Tag_medial,[1576;1605]);
(64738,Tag_medial,[1576;1607]);
(64739,Tag_medial,[1578;1605]);
(64740,Tag_medial,[1578;1607]);
(64741,Tag_medial,[1579;1605]);
(64742,Tag_medial,[1579;1607]);
(64743,Tag_medial,[1587;1605]);
(64744,Tag_medial,[1587;1607]);
(64745,Tag_medial,[1588;1605]);
(64746,Tag_medial,[1588;1607]);
(64747,Tag_medial,[1603;1604]);
(64748,Tag_medial,[1603;1605]);
(64749,Tag_medial,[1604;1605]);
(64750,Tag_medial,[1606;1605]);
(64751,Tag_medial,[1606;1607]);
(64752,Tag_medial,[1610;1605]);
(64753,Tag_medial,[1610;1607]);
(64754,Tag_medial,[1600;1614;1617]);
(64755,Tag_medial,[1600;1615;1617]);
(64756,Tag_medial,[1600;1616;1617]);
(64757,Tag_isolated,[1591;1609]);
(64758,Tag_isolated,[1591;1610]);
(64759,Tag_isolated,[1593;1609]);
(64760,Tag_isolated,[1593;1610]);
(64761,Tag_isolated,[1594;1609]);
(64762,Tag_isolated,[1594;1610]);
(64763,Tag_isolated,[1587;1609]);
(64764,Tag_isolated,[1587;1610]);
(64765,Tag_isolated,[1588;1609]);
(64766,Tag_isolated,[1588;1610]);
(64767,Tag_isolated,[1581;1609]);
(64768,Tag_isolated,[1581;1610]);
(64769,Tag_isolated,[1580;1609]);
(64770,Tag_isolated,[1580;1610]);
(64771,Tag_isolated,[1582;1609]);
(64772,Tag_isolated,[1582;1610]);
(64773,Tag_isolated,[1589;1609]);
(64774,Tag_isolated,[1589;1610]);
(64775,Tag_isolated,[1590;1609]);
(64776,Tag_isolated,[1590;1610]);
(64777,Tag_isolated,[1588;1580]);
(64778,Tag_isolated,[1588;1581]);
(64779,Tag_isolated,[1588;1582]);
(64780,Tag_isolated,[1588;1605]);
(64781,Tag_isolated,[1588;1585]);
(64782,Tag_isolated,[1587;1585]);
(64783,Tag_isolated,[1589;1585]);
(64784,Tag_isolated,[1590;1585]);
(64785,Tag_final,[1591;1609]);
(64786,Tag_final,[1591;1610]);
(64787,Tag_final,[1593;1609]);
(64788,Tag_final,[1593;1610]);
(64789,Tag_final,[1594;1609]);
(64790,Tag_final,[1594;1610]);
(64791,Tag_final,[1587;1609]);
(64792,Tag_final,[1587;1610]);
(64793,Tag_final,[1588;1609]);
(64794,Tag_final,[1588;1610]);
(64795,Tag_final,[1581;1609]);
(64796,Tag_final,[1581;1610]);
(64797,Tag_final,[1580;1609]);
(64798,Tag_final,[1580;1610]);
(64799,Tag_final,[1582;1609]);
(64800,Tag_final,[1582;1610]);
(64801,Tag_final,[1589;1609]);
(64802,Tag_final,[1589;1610]);
(64803,Tag_final,[1590;1609]);
(64804,Tag_final,[1590;1610]);
(64805,Tag_final,[1588;1580]);
(64806,Tag_final,[1588;1581]);
(64807,Tag_final,[1588;1582]);
(64808,Tag_final,[1588;1605]);
(64809,Tag_final,[1588;1585]);
(64810,Tag_final,[1587;1585]);
(64811,Tag_final,[1589;1585]);
(64812,Tag_final,[1590;1585]);
(64813,Tag_initial,[1588;1580]);
(64814,Tag_initial,[1588;1581]);
(64815,Tag_initial,[1588;1582]);
(64816,Tag_initial,[1588;1605]);
(64817,Tag_initial,[1587;1607]);
(64818,Tag_initial,[1588;1607]);
(64819,Tag_initial,[1591;1605]);
(64820,Tag_medial,[1587;1580]);
(64821,Tag_medial,[1587;1581]);
(64822,Tag_medial,[1587;1582]);
(64823,Tag_medial,[1588;1580]);
(64824,Tag_medial,[1588;1581]);
(64825,Tag_medial,[1588;1582]);
(64826,Tag_medial,[1591;1605]);
(64827,Tag_medial,[1592;1605]);
(64828,Tag_final,[1575;1611]);
(64829,Tag_isolated,[1575;1611]);
(64848,Tag_initial,[1578;1580;1605]);
(64849,Tag_final,[1578;1581;1580]);
(64850,Tag_initial,[1578;1581;1580]);
(64851,Tag_initial,[1578;1581;1605]);
(64852,Tag_initial,[1578;1582;1605]);
(64853,Tag_initial,[1578;1605;1580]);
(64854,Tag_initial,[1578;1605;1581]);
(64855,Tag_initial,[1578;1605;1582]);
(64856,Tag_final,[1580;1605;1581]);
(64857,Tag_initial,[1580;1605;1581]);
(64858,Tag_final,[1581;1605;1610]);
(64859,Tag_final,[1581;1605;1609]);
(64860,Tag_initial,[1587;1581;1580]);
(64861,Tag_initial,[1587;1580;1581]);
(64862,Tag_final,[1587;1580;1609]);
(64863,Tag_final,[1587;1605;1581]);
(64864,Tag_initial,[1587;1605;1581]);
(64865,Tag_initial,[1587;1605;1580]);
(64866,Tag_final,[1587;1605;1605]);
(64867,Tag_initial,[1587;1605;1605]);
(64868,Tag_final,[1589;1581;1581]);
(64869,Tag_initial,[1589;1581;1581]);
(64870,Tag_final,[1589;1605;1605]);
(64871,Tag_final,[1588;1581;1605]);
(64872,Tag_initial,[1588;1581;1605]);
(64873,Tag_final,[1588;1580;1610]);
(64874,Tag_final,[1588;1605;1582]);
(64875,Tag_initial,[1588;1605;1582]);
(64876,Tag_final,[1588;1605;1605]);
(64877,Tag_initial,[1588;1605;1605]);
(64878,Tag_final,[1590;1581;1609]);
(64879,Tag_final,[1590;1582;1605]);
(64880,Tag_initial,[1590;1582;1605]);
(64881,Tag_final,[1591;1605;1581]);
(64882,Tag_initial,[1591;1605;1581]);
(64883,Tag_initial,[1591;1605;1605]);
(64884,Tag_final,[1591;1605;1610]);
(64885,Tag_final,[1593;1580;1605]);
(64886,Tag_final,[1593;1605;1605]);
(64887,Tag_initial,[1593;1605;1605]);
(64888,Tag_final,[1593;1605;1609]);
(64889,Tag_final,[1594;1605;1605]);
(64890,Tag_final,[1594;1605;1610]);
(64891,Tag_final,[1594;1605;1609]);
(64892,Tag_final,[1601;1582;1605]);
(64893,Tag_initial,[1601;1582;1605]);
(64894,Tag_final,[1602;1605;1581]);
(64895,Tag_final,[1602;1605;1605]);
(64896,Tag_final,[1604;1581;1605]);
(64897,Tag_final,[1604;1581;1610]);
(64898,Tag_final,[1604;1581;1609]);
(64899,Tag_initial,[1604;1580;1580]);
(64900,Tag_final,[1604;1580;1580]);
(64901,Tag_final,[1604;1582;1605]);
(64902,Tag_initial,[1604;1582;1605]);
(64903,Tag_final,[1604;1605;1581]);
(64904,Tag_initial,[1604;1605;1581]);
(64905,Tag_initial,[1605;1581;1580]);
(64906,Tag_initial,[1605;1581;1605]);
(64907,Tag_final,[1605;1581;1610]);
(64908,Tag_initial,[1605;1580;1581]);
(64909,Tag_initial,[1605;1580;1605]);
(64910,Tag_initial,[1605;1582;1580]);
(64911,Tag_initial,[1605;1582;1605]);
(64914,Tag_initial,[1605;1580;1582]);
(64915,Tag_initial,[1607;1605;1580]);
(64916,Tag_initial,[1607;1605;1605]);
(64917,Tag_initial,[1606;1581;1605]);
(64918,Tag_final,[1606;1581;1609]);
(64919,Tag_final,[1606;1580;1605]);
(64920,Tag_initial,[1606;1580;1605]);
(64921,Tag_final,[1606;1580;1609]);
(64922,Tag_final,[1606;1605;1610]);
(64923,Tag_final,[1606;1605;1609]);
(64924,Tag_final,[1610;1605;1605]);
(64925,Tag_initial,[1610;1605;1605]);
(64926,Tag_final,[1576;1582;1610]);
(64927,Tag_final,[1578;1580;1610]);
(64928,Tag_final,[1578;1580;1609]);
(64929,Tag_final,[1578;1582;1610]);
(64930,Tag_final,[1578;1582;1609]);
(64931,Tag_final,[1578;1605;1610]);
(64932,Tag_final,[1578;1605;1609]);
(64933,Tag_final,[1580;1605;1610]);
(64934,Tag_final,[1580;1581;1609]);
(64935,Tag_final,[1580;1605;1609]);
(64936,Tag_final,[1587;1582;1609]);
(64937,Tag_final,[1589;1581;1610]);
(64938,Tag_final,[1588;1581;1610]);
(64939,Tag_final,[1590;1581;1610]);
(64940,Tag_final,[1604;1580;1610]);
(64941,Tag_final,[1604;1605;1610]);
(64942,Tag_final,[1610;1581;1610]);
(64943,Tag_final,[1610;1580;1610]);
(64944,Tag_final,[1610;1605;1610]);
(64945,Tag_final,[1605;1605;1610]);
(64946,Tag_final,[1602;1605;1610]);
(64947,Tag_final,[1606;1581;1610]);
(64948,Tag_initial,[1602;1605;1581]);
(64949,Tag_initial,[1604;1581;1605]);
(64950,Tag_final,[1593;1605;1610]);
(64951,Tag_final,[1603;1605;1610]);
(64952,Tag_initial,[1606;1580;1581]);
(64953,Tag_final,[1605;1582;1610]);
(64954,Tag_initial,[1604;1580;1605]);
(64955,Tag_final,[1603;1605;1605]);
(64956,Tag_final,[1604;1580;1605]);
(64957,Tag_final,[1606;1580;1581]);
(64958,Tag_final,[1580;1581;1610]);
(64959,Tag_final,[1581;1580;1610]);
(64960,Tag_final,[1605;1580;1610]);
(64961,Tag_final,[1601;1605;1610]);
(64962,Tag_final,[1576;1581;1610]);
(64963,Tag_initial,[1603;1605;1605]);
(64964,Tag_initial,[1593;1580;1605]);
(64965,Tag_initial,[1589;1605;1605]);
(64966,Tag_final,[1587;1582;1610]);
(64967,Tag_final,[1606;1580;1610]);
(65008,Tag_isolated,[1589;1604;1746]);
(65009,Tag_isolated,[1602;1604;1746]);
(65010,Tag_isolated,[1575;1604;1604;1607]);
(65011,Tag_isolated,[1575;1603;1576;1585]);
(65012,Tag_isolated,[1605;1581;1605;1583]);
(65013,Tag_isolated,[1589;1604;1593;1605]);
(65014,Tag_isolated,[1585;1587;1608;1604]);
(65015,Tag_isolated,[1593;1604;1610;1607]);
(65016,Tag_isolated,[1608;1587;1604;1605]);
(65017,Tag_isolated,[1589;1604;1609]);
(65018,Tag_isolated,[1589;1604;1609;32;1575;1604;1604;1607;32;1593;1604;1610;1607;32;1608;1587;1604;1605]);
(65019,Tag_isolated,[1580;1604;32;1580;1604;1575;1604;1607]);
(65020,Tag_isolated,[1585;1740;1575;1604]);
(65040,Tag_vertical,[44]);
(65041,Tag_vertical,[12289]);
(65042,Tag_vertical,[12290]);
(65043,Tag_vertical,[58]);
(65044,Tag_vertical,[59]);
(65045,Tag_vertical,[33]);
(65046,Tag_vertical,[63]);
(65047,Tag_vertical,[12310]);
(65048,Tag_vertical,[12311]);
(65049,Tag_vertical,[8230]);
(65072,Tag_vertical,[8229]);
(65073,Tag_vertical,[8212]);
(65074,Tag_vertical,[8211]);
(65075,Tag_vertical,[95]);
(65076,Tag_vertical,[95]);
(65077,Tag_vertical,[40]);
(65078,Tag_vertical,[41]);
(65079,Tag_vertical,[123]);
(65080,Tag_vertical,[125]);
(65081,Tag_vertical,[12308]);
(65082,Tag_vertical,[12309]);
(65083,Tag_vertical,[12304]);
(65084,Tag_vertical,[12305]);
(65085,Tag_vertical,[12298]);
(65086,Tag_vertical,[12299]);
(65087,Tag_vertical,[12296]);
(65088,Tag_vertical,[12297]);
(65089,Tag_vertical,[12300]);
(65090,Tag_vertical,[12301]);
(65091,Tag_vertical,[12302]);
(65092,Tag_vertical,[12303]);
(65095,Tag_vertical,[91]);
(65096,Tag_vertical,[93]);
(65097,Tag_compat,[8254]);
(65098,Tag_compat,[8254]);
(65099,Tag_compat,[8254]);
(65100,Tag_compat,[8254]);
(65101,Tag_compat,[95]);
(65102,Tag_compat,[95]);
(65103,Tag_compat,[95]);
(65104,Tag_small,[44]);
(65105,Tag_small,[12289]);
(65106,Tag_small,[46]);
(65108,Tag_small,[59]);
(65109,Tag_small,[58]);
(65110,Tag_small,[63]);
(65111,Tag_small,[33]);
(65112,Tag_small,[8212]);
(65113,Tag_small,[40]);
(65114,Tag_small,[41]);
(65115,Tag_small,[123]);
(65116,Tag_small,[125]);
(65117,Tag_small,[12308]);
(65118,Tag_small,[12309]);
(65119,Tag_small,[35]);
(65120,Tag_small,[38]);
(65121,Tag_small,[42]);
(65122,Tag_small,[43]);
(65123,Tag_small,[45]);
(65124,Tag_small,[60]);
(65125,Tag_small,[62]);
(65126,Tag_small,[61]);
(65128,Tag_small,[92]);
(65129,Tag_small,[36]);
(65130,Tag_small,[37]);
(65131,Tag_small,[64]);
(65136,Tag_isolated,[32;1611]);
(65137,Tag_medial,[1600;1611]);
(65138,Tag_isolated,[32;1612]);
(65140,Tag_isolated,[32;1613]);
(65142,Tag_isolated,[32;1614]);
(65143,Tag_medial,[1600;1614]);
(65144,Tag_isolated,[32;1615]);
(65145,Tag_medial,[1600;1615]);
(65146,Tag_isolated,[32;1616]);
(65147,Tag_medial,[1600;1616]);
(65148,Tag_isolated,[32;1617]);
(65149,Tag_medial,[1600;1617]);
(65150,Tag_isolated,[32;1618]);
(65151,Tag_medial,[1600;1618]);
(65152,Tag_isolated,[1569]);
(65153,Tag_isolated,[1570]);
(65154,Tag_final,[1570]);
(65155,Tag_isolated,[1571]);
(65156,Tag_final,[1571]);
(65157,Tag_isolated,[1572]);
(65158,Tag_final,[1572]);
(65159,Tag_isolated,[1573]);
(65160,Tag_final,[1573]);
(65161,Tag_isolated,[1574]);
(65162,Tag_final,[1574]);
(65163,Tag_initial,[1574]);
(65164,Tag_medial,[1574]);
(65165,Tag_isolated,[1575]);
(65166,Tag_final,[1575]);
(65167,Tag_isolated,[1576]);
(65168,Tag_final,[1576]);
(65169,Tag_initial,[1576]);
(65170,Tag_medial,[1576]);
(65171,Tag_isolated,[1577]);
(65172,Tag_final,[1577]);
(65173,Tag_isolated,[1578]);
(65174,Tag_final,[1578]);
(65175,Tag_initial,[1578]);
(65176,Tag_medial,[1578]);
(65177,Tag_isolated,[1579]);
(65178,Tag_final,[1579]);
(65179,Tag_initial,[1579]);
(65180,Tag_medial,[1579]);
(65181,Tag_isolated,[1580]);
(65182,Tag_final,[1580]);
(65183,Tag_initial,[1580]);
(65184,Tag_medial,[1580]);
(65185,Tag_isolated,[1581]);
(65186,Tag_final,[1581]);
(65187,Tag_initial,[1581]);
(65188,Tag_medial,[1581]);
(65189,Tag_isolated,[1582]);
(65190,Tag_final,[1582]);
(65191,Tag_initial,[1582]);
(65192,Tag_medial,[1582]);
(65193,Tag_isolated,[1583]);
(65194,Tag_final,[1583]);
(65195,Tag_isolated,[1584]);
(65196,Tag_final,[1584]);
(65197,Tag_isolated,[1585]);
(65198,Tag_final,[1585]);
(65199,Tag_isolated,[1586]);
(65200,Tag_final,[1586]);
(65201,Tag_isolated,[1587]);
(65202,Tag_final,[1587]);
(65203,Tag_initial,[1587]);
(65204,Tag_medial,[1587]);
(65205,Tag_isolated,[1588]);
(65206,Tag_final,[1588]);
(65207,Tag_initial,[1588]);
(65208,Tag_medial,[1588]);
(65209,Tag_isolated,[1589]);
(65210,Tag_final,[1589]);
(65211,Tag_initial,[1589]);
(65212,Tag_medial,[1589]);
(65213,Tag_isolated,[1590]);
(65214,Tag_final,[1590]);
(65215,Tag_initial,[1590]);
(65216,Tag_medial,[1590]);
(65217,Tag_isolated,[1591]);
(65218,Tag_final,[1591]);
(65219,Tag_initial,[1591]);
(65220,Tag_medial,[1591]);
(65221,Tag_isolated,[1592]);
(65222,Tag_final,[1592]);
(65223,Tag_initial,[1592]);
(65224,Tag_medial,[1592]);
(65225,Tag_isolated,[1593]);
(65226,Tag_final,[1593]);
(65227,Tag_initial,[1593]);
(65228,Tag_medial,[1593]);
(65229,Tag_isolated,[1594]);
(65230,Tag_final,[1594]);
(65231,Tag_initial,[1594]);
(65232,Tag_medial,[1594]);
(65233,Tag_isolated,[1601]);
(65234,Tag_final,[1601]);
(65235,Tag_initial,[1601]);
(65236,Tag_medial,[1601]);
(65237,Tag_isolated,[1602]);
(65238,Tag_final,[1602]);
(65239,Tag_initial,[1602]);
(65240,Tag_medial,[1602]);
(65241,Tag_isolated,[1603]);
(65242,Tag_final,[1603]);
(65243,Tag_initial,[1603]);
(65244,Tag_medial,[1603]);
(65245,Tag_isolated,[1604]);
(65246,Tag_final,[1604]);
(65247,Tag_initial,[1604]);
(65248,Tag_medial,[1604]);
(65249,Tag_isolated,[1605]);
(65250,Tag_final,[1605]);
(65251,Tag_initial,[1605]);
(65252,Tag_medial,[1605]);
(65253,Tag_isolated,[1606]);
(65254,Tag_final,[1606]);
(65255,Tag_initial,[1606]);
(65256,Tag_medial,[1606]);
(65257,Tag_isolated,[1607]);
(65258,Tag_final,[1607]);
(65259,Tag_initial,[1607]);
(65260,Tag_medial,[1607]);
(65261,Tag_isolated,[1608]);
(65262,Tag_final,[1608]);
(65263,Tag_isolated,[1609]);
(65264,Tag_final,[1609]);
(65265,Tag_isolated,[1610]);
(65266,Tag_final,[1610]);
(65267,Tag_initial,[1610]);
(65268,Tag_medial,[1610]);
(65269,Tag_isolated,[1604;1570]);
(65270,Tag_final,[1604;1570]);
(65271,Tag_isolated,[1604;1571]);
(65272,Tag_final,[1604;1571]);
(65273,Tag_isolated,[1604;1573]);
(65274,Tag_final,[1604;1573]);
(65275,Tag_isolated,[1604;1575]);
(65276,Tag_final,[1604;1575]);
(65281,Tag_wide,[33]);
(65282,Tag_wide,[34]);
(65283,Tag_wide,[35]);
(65284,Tag_wide,[36]);
(65285,Tag_wide,[37]);
(65286,Tag_wide,[38]);
(65287,Tag_wide,[39]);
(65288,Tag_wide,[40]);
(65289,Tag_wide,[41]);
(65290,Tag_wide,[42]);
(65291,Tag_wide,[43]);
(65292,Tag_wide,[44]);
(65293,Tag_wide,[45]);
(65294,Tag_wide,[46]);
(65295,Tag_wide,[47]);
(65296,Tag_wide,[48]);
(65297,Tag_wide,[49]);
(65298,Tag_wide,[50]);
(65299,Tag_wide,[51]);
(65300,Tag_wide,[52]);
(65301,Tag_wide,[53]);
(65302,Tag_wide,[54]);
(65303,Tag_wide,[55]);
(65304,Tag_wide,[56]);
(65305,Tag_wide,[57]);
(65306,Tag_wide,[58]);
(65307,Tag_wide,[59]);
(65308,Tag_wide,[60]);
(65309,Tag_wide,[61]);
(65310,Tag_wide,[62]);
(65311,Tag_wide,[63]);
(65312,Tag_wide,[64]);
(65313,Tag_wide,[65]);
(65314,Tag_wide,[66]);
(65315,Tag_wide,[67]);
(65316,Tag_wide,[68]);
(65317,Tag_wide,[69]);
(65318,Tag_wide,[70]);
(65319,Tag_wide,[71]);
(65320,Tag_wide,[72]);
(65321,Tag_wide,[73]);
(65322,Tag_wide,[74]);
(65323,Tag_wide,[75]);
(65324,Tag_wide,[76]);
(65325,Tag_wide,[77]);
(65326,Tag_wide,[78]);
(65327,Tag_wide,[79]);
(65328,Tag_wide,[80]);
(65329,Tag_wide,[81]);
(65330,Tag_wide,[82]);
(65331,Tag_wide,[83]);
(65332,Tag_wide,[84]);
(65333,Tag_wide,[85]);
(65334,Tag_wide,[86]);
(65335,Tag_wide,[87]);
(65336,Tag_wide,[88]);
(65337,Tag_wide,[89]);
(65338,Tag_wide,[90]);
(65339,Tag_wide,[91]);
(65340,Tag_wide,[92]);
(65341,Tag_wide,[93]);
(65342,Tag_wide,[94]);
(65343,Tag_wide,[95]);
(65344,Tag_wide,[96]);
(65345,Tag_wide,[97]);
(65346,Tag_wide,[98]);
(65347,Tag_wide,[99]);
(65348,Tag_wide,[100]);
(65349,Tag_wide,[101]);
(65350,Tag_wide,[102]);
(65351,Tag_wide,[103]);
(65352,Tag_wide,[104]);
(65353,Tag_wide,[105]);
(65354,Tag_wide,[106]);
(65355,Tag_wide,[107]);
(65356,Tag_wide,[108]);
(65357,Tag_wide,[109]);
(65358,Tag_wide,[110]);
(65359,Tag_wide,[111]);
(65360,Tag_wide,[112]);
(65361,Tag_wide,[113]);
(65362,Tag_wide,[114]);
(65363,Tag_wide,[115]);
(65364,Tag_wide,[116]);
(65365,Tag_wide,[117]);
(65366,Tag_wide,[118]);
(65367,Tag_wide,[119]);
(65368,Tag_wide,[120]);
(65369,Tag_wide,[121]);
(65370,Tag_wide,[122]);
(65371,Tag_wide,[123]);
(65372,Tag_wide,[124]);
(65373,Tag_wide,[125]);
(65374,Tag_wide,[126]);
(65375,Tag_wide,[10629]);
(65376,Tag_wide,[10630]);
(65377,Tag_narrow,[12290]);
(65378,Tag_narrow,[12300]);
(65379,Tag_narrow,[12301]);
(65380,Tag_narrow,[12289]);
(65381,Tag_narrow,[12539]);
(65382,Tag_narrow,[12530]);
(65383,Tag_narrow,[12449]);
(65384,Tag_narrow,[12451]);
(65385,Tag_narrow,[12453]);
(65386,Tag_narrow,[12455]);
(65387,Tag_narrow,[12457]);
(65388,Tag_narrow,[12515]);
(65389,Tag_narrow,[12517]);
(65390,Tag_narrow,[12519]);
(65391,Tag_narrow,[12483]);
(65392,Tag_narrow,[12540]);
(65393,Tag_narrow,[12450]);
(65394,Tag_narrow,[12452]);
(65395,Tag_narrow,[12454]);
(65396,Tag_narrow,[12456]);
(65397,Tag_narrow,[12458]);
(65398,Tag_narrow,[12459]);
(65399,Tag_narrow,[12461]);
(65400,Tag_narrow,[12463]);
(65401,Tag_narrow,[12465]);
(65402,Tag_narrow,[12467]);
(65403,Tag_narrow,[12469]);
(65404,Tag_narrow,[12471]);
(65405,Tag_narrow,[12473]);
(65406,Tag_narrow,[12475]);
(65407,Tag_narrow,[12477]);
(65408,Tag_narrow,[12479]);
(65409,Tag_narrow,[12481]);
(65410,Tag_narrow,[12484]);
(65411,Tag_narrow,[12486]);
(65412,Tag_narrow,[12488]);
(65413,Tag_narrow,[12490]);
(65414,Tag_narrow,[12491]);
(65415,Tag_narrow,[12492]);
(65416,Tag_narrow,[12493]);
(65417,Tag_narrow,[12494]);
(65418,Tag_narrow,[12495]);
(65419,Tag_narrow,[12498]);
(65420,Tag_narrow,[12501]);
(65421,Tag_narrow,[12504]);
(65422,Tag_narrow,[12507]);
(65423,Tag_narrow,[12510]);
(65424,Tag_narrow,[12511]);
(65425,Tag_narrow,[12512]);
(65426,Tag_narrow,[12513]);
(65427,Tag_narrow,[12514]);
(65428,Tag_narrow,[12516]);
(65429,Tag_narrow,[12518]);
(65430,Tag_narrow,[12520]);
(65431,Tag_narrow,[12521]);
(65432,Tag_narrow,[12522]);
(65433,Tag_narrow,[12523]);
(65434,Tag_narrow,[12524]);
(65435,Tag_narrow,[12525]);
(65436,Tag_narrow,[12527]);
(65437,Tag_narrow,[12531]);
(65438,Tag_narrow,[12441]);
(65439,Tag_narrow,[12442]);
(65440,Tag_narrow,[12644]);
(65441,Tag_narrow,[12593]);
(65442,Tag_narrow,[12594]);
(65443,Tag_narrow,[12595]);
(65444,Tag_narrow,[12596]);
(65445,Tag_narrow,[12597]);
(65446,Tag_narrow,[12598]);
(65447,Tag_narrow,[12599]);
(65448,Tag_narrow,[12600]);
(65449,Tag_narrow,[12601]);
(65450,Tag_narrow,[12602]);
(65451,Tag_narrow,[12603]);
(65452,Tag_narrow,[12604]);
(65453,Tag_narrow,[12605]);
(65454,Tag_narrow,[12606]);
(65455,Tag_narrow,[12607]);
(65456,Tag_narrow,[12608]);
(65457,Tag_narrow,[12609]);
(65458,Tag_narrow,[12610]);
(65459,Tag_narrow,[12611]);
(65460,Tag_narrow,[12612]);
(65461,Tag_narrow,[12613]);
(65462,Tag_narrow,[12614]);
(65463,Tag_narrow,[12615]);
(65464,Tag_narrow,[12616]);
(65465,Tag_narrow,[12617]);
(65466,Tag_narrow,[12618]);
(65467,Tag_narrow,[12619]);
(65468,Tag_narrow,[12620]);
(65469,Tag_narrow,[12621]);
(65470,Tag_narrow,[12622]);
(65474,Tag_narrow,[12623]);
(65475,Tag_narrow,[12624]);
(65476,Tag_narrow,[12625]);
(65477,Tag_narrow,[12626]);
(65478,Tag_narrow,[12627]);
(65479,Tag_narrow,[12628]);
(65482,Tag_narrow,[12629]);
(65483,Tag_narrow,[12630]);
(65484,Tag_narrow,[12631]);
(65485,Tag_narrow,[12632]);
(65486,Tag_narrow,[12633]);
(65487,Tag_narrow,[12634]);
(65490,Tag_narrow,[12635]);
(65491,Tag_narrow,[12636]);
(65492,Tag_narrow,[12637]);
(65493,Tag_narrow,[12638]);
(65494,Tag_narrow,[12639]);
(65495,Tag_narrow,[12640]);
(65498,Tag_narrow,[12641]);
(65499,Tag_narrow,[12642]);
(65500,Tag_narrow,[12643]);
(65504,Tag_wide,[162]);
(65505,Tag_wide,[163]);
(65506,Tag_wide,[172]);
(65507,Tag_wide,[175]);
(65508,Tag_wide,[166]);
(65509,Tag_wide,[165]);
(65510,Tag_wide,[8361]);
(65512,Tag_narrow,[9474]);
(65513,Tag_narrow,[8592]);
(65514,Tag_narrow,[8593]);
(65515,Tag_narrow,[8594]);
(65516,Tag_narrow,[8595]);
(65517,Tag_narrow,[9632]);
(65518,Tag_narrow,[9675]);
(69786,Canonical,[69785;69818]);
(69788,Canonical,[69787;69818]);
(69803,Canonical,[69797;69818]);
(69934,Canonical,[69937;69927]);
(69935,Canonical,[69938;69927]);
(70475,Canonical,[70471;70462]);
(70476,Canonical,[70471;70487]);
(70843,Canonical,[70841;70842]);
(70844,Canonical,[70841;70832]);
(70846,Canonical,[70841;70845]);
(71098,Canonical,[71096;71087]);
(71099,Canonical,[71097;71087]);
(119134,Canonical,[119127;119141]);
(119135,Canonical,[119128;119141]);
(119136,Canonical,[119135;119150]);
(119137,Canonical,[119135;119151]);
(119138,Canonical,[119135;119152]);
(119139,Canonical,[119135;119153]);
(119140,Canonical,[119135;119154]);
(119227,Canonical,[119225;119141]);
(119228,Canonical,[119226;119141]);
(119229,Canonical,[119227;119150]);
(119230,Canonical,[119228;119150]);
(119231,Canonical,[119227;119151]);
(119232,Canonical,[119228;119151]);
(119808,Tag_font,[65]);
(119809,Tag_font,[66]);
(119810,Tag_font,[67]);
(119811,Tag_font,[68]);
(119812,Tag_font,[69]);
(119813,Tag_font,[70]);
(119814,Tag_font,[71]);
(119815,Tag_font,[72]);
(119816,Tag_font,[73]);
(119817,Tag_font,[74]);
(119818,Tag_font,[75]);
(119819,Tag_font,[76]);
(119820,Tag_font,[77]);
(119821,Tag_font,[78]);
(119822,Tag_font,[79]);
(119823,Tag_font,[80]);
(119824,Tag_font,[81]);
(119825,Tag_font,[82]);
(119826,Tag_font,[83]);
(119827,Tag_font,[84]);
(119828,Tag_font,[85]);
(119829,Tag_font,[86]);
(119830,Tag_font,[87]);
(119831,Tag_font,[88]);
(119832,Tag_font,[89]);
(119833,Tag_font,[90]);
(119834,Tag_font,[97]);
(119835,Tag_font,[98]);
(119836,Tag_font,[99]);
(119837,Tag_font,[100]);
(119838,Tag_font,[101]);
(119839,Tag_font,[102]);
(119840,Tag_font,[103]);
(119841,Tag_font,[104]);
(119842,Tag_font,[105]);
(119843,Tag_font,[106]);
(119844,Tag_font,[107]);
(119845,Tag_font,[108]);
(119846,Tag_font,[109]);
(119847,Tag_font,[110]);
(119848,Tag_font,[111]);
(119849,Tag_font,[112]);
(119850,Tag_font,[113]);
(119851,Tag_font,[114]);
(119852,Tag_font,[115]);
(119853,Tag_font,[116]);
(119854,Tag_font,[117]);
(119855,Tag_font,[118]);
(119856,Tag_font,[119]);
(119857,Tag_font,[120]);
(119858,Tag_font,[121]);
(119859,Tag_font,[122]);
(119860,Tag_font,[65]);
(119861,Tag_font,[66]);
(119862,Tag_font,[67]);
(119863,Tag_font,[68]);
(119864,Tag_font,[69]);
(119865,Tag_font,[70]);
(119866,Tag_font,[71]);
(119867,Tag_font,[72]);
(119868,Tag_font,[73]);
(119869,Tag_font,[74]);
(119870,Tag_font,[75]);
(119871,Tag_font,[76]);
(119872,Tag_font,[77]);
(119873,Tag_font,[78]);
(119874,Tag_font,[79]);
(119875,Tag_font,[80]);
(119876,Tag_font,[81]);
(119877,Tag_font,[82]);
(119878,Tag_font,[83]);
(119879,Tag_font,[84]);
(119880,Tag_font,[85]);
(119881,Tag_font,[86]);
(119882,Tag_font,[87]);
(119883,Tag_font,[88]);
(119884,Tag_font,[89]);
(119885,Tag_font,[90]);
(119886,Tag_font,[97]);
(119887,Tag_font,[98]);
(119888,Tag_font,[99]);
(119889,Tag_font,[100]);
(119890,Tag_font,[101]);
(119891,Tag_font,[102]);
(119892,Tag_font,[103]);
(119894,Tag_font,[105]);
(119895,Tag_font,[106]);
(119896,Tag_font,[107]);
(119897,Tag_font,[108]);
(119898,Tag_font,[109]);
(119899,Tag_font,[110]);
(119900,Tag_font,[111]);
(119901,Tag_font,[112]);
(119902,Tag_font,[113]);
(119903,Tag_font,[114]);
(119904,Tag_font,[115]);
(119905,Tag_font,[116]);
(119906,Tag_font,[117]);
(119907,Tag_font,[118]);
(119908,Tag_font,[119]);
(119909,Tag_font,[120]);
(119910,Tag_font,[121]);
(119911,Tag_font,[122]);
(119912,Tag_font,[65]);
(119913,Tag_font,[66]);
(119914,Tag_font,[67]);
(119915,Tag_font,[68]);
(119916,Tag_font,[69]);
(119917,Tag_font,[70]);
(119918,Tag_font,[71]);
(119919,Tag_font,[72]);
(119920,Tag_font,[73]);
(119921,Tag_font,[74]);
(119922,Tag_font,[75]);
(119923,Tag_font,[76]);
(119924,Tag_font,[77]);
(119925,Tag_font,[78]);
(119926,Tag_font,[79]);
(119927,Tag_font,[80]);
(119928,Tag_font,[81]);
(119929,Tag_font,[82]);
(119930,Tag_font,[83]);
(119931,Tag_font,[84]);
(119932,Tag_font,[85]);
(119933,Tag_font,[86]);
(119934,Tag_font,[87]);
(119935,Tag_font,[88]);
(119936,Tag_font,[89]);
(119937,Tag_font,[90]);
(119938,Tag_font,[97]);
(119939,Tag_font,[98]);
(119940,Tag_font,[99]);
(119941,Tag_font,[100]);
(119942,Tag_font,[101]);
(119943,Tag_font,[102]);
(119944,Tag_font,[103]);
(119945,Tag_font,[104]);
(119946,Tag_font,[105]);
(119947,Tag_font,[106]);
(119948,Tag_font,[107]);
(119949,Tag_font,[108]);
(119950,Tag_font,[109]);
(119951,Tag_font,[110]);
(119952,Tag_font,[111]);
(119953,Tag_font,[112]);
(119954,Tag_font,[113]);
(119955,Tag_font,[114]);
(119956,Tag_font,[115]);
(119957,Tag_font,[116]);
(119958,Tag_font,[117]);
(119959,Tag_font,[118]);
(119960,Tag_font,[119]);
(119961,Tag_font,[120]);
(119962,Tag_font,[121]);
(119963,Tag_font,[122]);
(119964,Tag_font,[65]);
(119966,Tag_font,[67]);
(119967,Tag_font,[68]);
(119970,Tag_font,[71]);
(119973,Tag_font,[74]);
(119974,Tag_font,[75]);
(119977,Tag_font,[78]);
(119978,Tag_font,[79]);
(119979,Tag_font,[80]);
(119980,Tag_font,[81]);
(119982,Tag_font,[83]);
(119983,Tag_font,[84]);
(119984,Tag_font,[85]);
(119985,Tag_font,[86]);
(119986,Tag_font,[87]);
(119987,Tag_font,[88]);
(119988,Tag_font,[89]);
(119989,Tag_font,[90]);
(119990,Tag_font,[97]);
(119991,Tag_font,[98]);
(119992,Tag_font,[99]);
(119993,Tag_font,[100]);
(119995,Tag_font,[102]);
(119997,Tag_font,[104]);
(119998,Tag_font,[105]);
(119999,Tag_font,[106]);
(120000,Tag_font,[107]);
(120001,Tag_font,[108]);
(120002,Tag_font,[109]);
(120003,Tag_font,[110]);
(120005,Tag_font,[112]);
(120006,Tag_font,[113]);
(120007,Tag_font,[114]);
(120008,Tag_font,[115]);
(120009,Tag_font,[116]);
(120010,Tag_font,[117]);
(120011,Tag_font,[118]);
(120012,Tag_font,[119]);
(120013,Tag_font,[120]);
(120014,Tag_font,[121]);
(120015,Tag_font,[122]);
(120016,Tag_font,[65]);
(120017,Tag_font,[66]);
(120018,Tag_font,[67]);
(120019,Tag_font,[68]);
(120020,Tag_font,[69]);
(120021,Tag_font,[70]);
(120022,Tag_font,[71]);
(120023,Tag_font,[72]);
(120024,Tag_font,[73]);
(120025,Tag_font,[74]);
(120026,Tag_font,[75]);
(120027,Tag_font,[76]);
(120028,Tag_font,[77]);
(120029,Tag_font,[78]);
(120030,Tag_font,[79]);
(120031,Tag_font,[80]);
(120032,Tag_font,[81]);
(120033,Tag_font,[82]);
(120034,Tag_font,[83]);
(120035,Tag_font,[84]);
(120036,Tag_font,[85]);
(120037,Tag_font,[86]);
(120038,Tag_font,[87]);
(120039,Tag_font,[88]);
(120040,Tag_font,[89]);
(120041,Tag_font,[90]);
(120042,Tag_font,[97]);
(120043,Tag_font,[98]);
(120044,Tag_font,[99]);
(120045,Tag_font,[100]);
(120046,Tag_font,[101]);
(120047,Tag_font,[102]);
(120048,Tag_font,[103]);
(120049,Tag_font,[104]);
(120050,Tag_font,[105]);
(120051,Tag_font,[106]);
(120052,Tag_font,[107]);
(120053,Tag_font,[108]);
(120054,Tag_font,[109]);
(120055,Tag_font,[110]);
(120056,Tag_font,[111]);
(120057,Tag_font,[112]);
(120058,Tag_font,[113]);
(120059,Tag_font,[114]);
(120060,Tag_font,[115]);
(120061,Tag_font,[116]);
(120062,Tag_font,[117]);
(120063,Tag_font,[118]);
(120064,Tag_font,[119]);
(120065,Tag_font,[120]);
(120066,Tag_font,[121]);
(120067,Tag_font,[122]);
(120068,Tag_font,[65]);
(120069,Tag_font,[66]);
(120071,Tag_font,[68]);
(120072,Tag_font,[69]);
(120073,Tag_font,[70]);
(120074,Tag_font,[71]);
(120077,Tag_font,[74]);
(120078,Tag_font,[75]);
(120079,Tag_font,[76]);
(120080,Tag_font,[77]);
(120081,Tag_font,[78]);
(120082,Tag_font,[79]);
(120083,Tag_font,[80]);
(120084,Tag_font,[81]);
(120086,Tag_font,[83]);
(120087,Tag_font,[84]);
(120088,Tag_font,[85]);
(120089,Tag_font,[86]);
(120090,Tag_font,[87]);
(120091,Tag_font,[88]);
(120092,Tag_font,[89]);
(120094,Tag_font,[97]);
(120095,Tag_font,[98]);
(120096,Tag_font,[99]);
(120097,Tag_font,[100]);
(120098,Tag_font,[101]);
(120099,Tag_font,[102]);
(120100,Tag_font,[103]);
(120101,Tag_font,[104]);
(120102,Tag_font,[105]);
(120103,Tag_font,[106]);
(120104,Tag_font,[107]);
(120105,Tag_font,[108]);
(120106,Tag_font,[109]);
(120107,Tag_font,[110]);
(120108,Tag_font,[111]);
(120109,Tag_font,[112]);
(120110,Tag_font,[113]);
(120111,Tag_font,[114]);
(120112,Tag_font,[115]);
(120113,Tag_font,[116]);
(120114,Tag_font,[117]);
(120115,Tag_font,[118]);
(120116,Tag_font,[119]);
(120117,Tag_font,[120]);
(120118,Tag_font,[121]);
(120119,Tag_font,[122]);
(120120,Tag_font,[65]);
(120121,Tag_font,[66]);
(120123,Tag_font,[68]);
(120124,Tag_font,[69]);
(120125,Tag_font,[70]);
(120126,Tag_font,[71]);
(120128,Tag_font,[73]);
(120129,Tag_font,[74]);
(120130,Tag_font,[75]);
(120131,Tag_font,[76]);
(120132,Tag_font,[77]);
(120134,Tag_font,[79]);
(120138,Tag_font,[83]);
(120139,Tag_font,[84]);
(120140,Tag_font,[85]);
(120141,Tag_font,[86]);
(120142,Tag_font,[87]);
(120143,Tag_font,[88]);
(120144,Tag_font,[89]);
(120146,Tag_font,[97]);
(120147,Tag_font,[98]);
(120148,Tag_font,[99]);
(120149,Tag_font,[100]);
(120150,Tag_font,[101]);
(120151,Tag_font,[102]);
(120152,Tag_font,[103]);
(120153,Tag_font,[104]);
(120154,Tag_font,[105]);
(120155,Tag_font,[106]);
(120156,Tag_font,[107]);
(120157,Tag_font,[108]);
(120158,Tag_font,[109]);
(120159,Tag_font,[110]);
(120160,Tag_font,[111]);
(120161,Tag_font,[112]);
(120162,Tag_font,[113]);
(120163,Tag_font,[114]);
(120164,Tag_font,[115]);
(120165,Tag_font,[116]);
(120166,Tag_font,[117]);
(120167,Tag_font,[118]);
(120168,Tag_font,[119]);
(120169,Tag_font,[120]);
(120170,Tag_font,[121]);
(120171,Tag_font,[122]);
(120172,Tag_font,[65]);
(120173,Tag_font,[66]);
(120174,Tag_font,[67]);
(120175,Tag_font,[68]);
(120176,Tag_font,[69]);
(120177,Tag_font,[70]);
(120178,Tag_font,[71]);
(120179,Tag_font,[72]);
(120180,Tag_font,[73]);
(120181,Tag_font,[74]);
(120182,Tag_font,[75]);
(120183,Tag_font,[76]);
(120184,Tag_font,[77]);
(120185,Tag_font,[78]);
(120186,Tag_font,[79]);
(120187,Tag_font,[80]);
(120188,Tag_font,[81]);
(120189,Tag_font,[82]);
(120190,Tag_font,[83]);
(120191,Tag_font,[84]);
(120192,Tag_font,[85]);
(120193,Tag_font,[86]);
(120194,Tag_font,[87]);
(120195,Tag_font,[88]);
(120196,Tag_font,[89]);
(120197,Tag_font,[90]);
(120198,Tag_font,[97]);
(120199,Tag_font,[98]);
(120200,Tag_font,[99]);
(120201,Tag_font,[100]);
(120202,Tag_font,[101]);
(120203,Tag_font,[102]);
(120204,Tag_font,[103]);
(120205,Tag_font,[104]);
(120206,Tag_font,[105]);
(120207,Tag_font,[106]);
(120208,Tag_font,[107]);
(120209,Tag_font,[108]);
(120210,Tag_font,[109]);
(120211,Tag_font,[110]);
(120212,Tag_font,[111]);
(120213,Tag_font,[112]);
(120214,Tag_font,[113]);
(120215,Tag_font,[114]);
(120216,Tag_font,[115]);
(120217,Tag_font,[116]);
(120218,Tag_font,[117]);
(120219,Tag_font,[118]);
(120220,Tag_font,[119]);
(120221,Tag_font,[120]);
(120222,Tag_font,[121]);
(120223,Tag_font,[122]);
(120224,Tag_font,[65]);
(120225,Tag_font,[66]);
(120226,Tag_font,[67]);
(120227,Tag_font,[68]);
(120228,Tag_font,[69]);
(120229,Tag_font,[70]);
(120230,Tag_font,[71]);
(120231,Tag_font,[72]);
(120232,Tag_font,[73]);
(120233,Tag_font,[74]);
(120234,Tag_font,[75]);
(120235,Tag_font,[76]);
(120236,Tag_font,[77]);
(120237,Tag_font,[78]);
(120238,Tag_font,[79]);
(120239,Tag_font,[80]);
(120240,Tag_font,[81]);
(120241,Tag_font,[82]);
(120242,Tag_font,[83]);
(120243,Tag_font,[84]);
(120244,Tag_font,[85]);
(120245,Tag_font,[86]);
(120246,Tag_font,[87]);
(120247,Tag_font,[88]);
(120248,Tag_font,[89]);
(120249,Tag_font,[90]);
(120250,Tag_font,[97]);
(120251,Tag_font,[98]);
(120252,Tag_font,[99]);
(120253,Tag_font,[100]);
(120254,Tag_font,[101]);
(120255,Tag_font,[102]);
(120256,Tag_font,[103]);
(120257,Tag_font,[104]);
(120258,Tag_font,[105]);
(120259,Tag_font,[106]);
(120260,Tag_font,[107]);
(120261,Tag_font,[108]);
(120262,Tag_font,[109]);
(120263,Tag_font,[110]);
(120264,Tag_font,[111]);
(120265,Tag_font,[112]);
(120266,Tag_font,[113]);
(120267,Tag_font,[114]);
(120268,Tag_font,[115]);
(120269,Tag_font,[116]);
(120270,Tag_font,[117]);
(120271,Tag_font,[118]);
(120272,Tag_font,[119]);
(120273,Tag_font,[120]);
(120274,Tag_font,[121]);
(120275,Tag_font,[122]);
(120276,Tag_font,[65]);
(120277,Tag_font,[66]);
(120278,Tag_font,[67]);
(120279,Tag_font,[68]);
(120280,Tag_font,[69]);
(120281,Tag_font,[70]);
(120282,Tag_font,[71]);
(120283,Tag_font,[72]);
(120284,Tag_font,[73]);
(120285,Tag_font,[74]);
(120286,Tag_font,[75]);
(120287,Tag_font,[76]);
(120288,Tag_font,[77]);
(120289,Tag_font,[78]);
(120290,Tag_font,[79]);
(120291,Tag_font,[80]);
(120292,Tag_font,[81]);
(120293,Tag_font,[82]);
(120294,Tag_font,[83]);
(120295,Tag_font,[84]);
(120296,Tag_font,[85]);
(120297,Tag_font,[86]);
(120298,Tag_font,[87]);
(120299,Tag_font,[88]);
(120300,Tag_font,[89]);
(120301,Tag_font,[90]);
(120302,Tag_font,[97]);
(120303,Tag_font,[98]);
(120304,Tag_font,[99]);
(120305,Tag_font,[100]);
(120306,Tag_font,[101]);
(120307,Tag_font,[102]);
(120308,Tag_font,[103]);
(120309,Tag_font,[104]);
(120310,Tag_font,[105]);
(120311,Tag_font,[106]);
(120312,Tag_font,[107]);
(120313,Tag_font,[108]);
(120314,Tag_font,[109]);
(120315,Tag_font,[110]);
(120316,Tag_font,[111]);
(120317,Tag_font,[112]);
(120318,Tag_font,[113]);
(120319,Tag_font,[114]);
(120320,Tag_font,[115]);
(120321,Tag_font,[116]);
(120322,Tag_font,[117]);
(120323,Tag_font,[118]);
(120324,Tag_font,[119]);
(120325,Tag_font,[120]);
(120326,Tag_font,[121]);
(120327,Tag_font,[122]);
(120328,Tag_font,[65]);
(120329,Tag_font,[66]);
(120330,Tag_font,[67]);
(120331,Tag_font,[68]);
(120332,Tag_font,[69]);
(120333,Tag_font,[70]);
(120334,Tag_font,[71]);
(120335,Tag_font,[72]);
(120336,Tag_font,[73]);
(120337,Tag_font,[74]);
(120338,Tag_font,[75]);
(120339,Tag_font,[76]);
(120340,Tag_font,[77]);
(120341,Tag_font,[78]);
(120342,Tag_font,[79]);
(120343,Tag_font,[80]);
(120344,Tag_font,[81]);
(120345,Tag_font,[82]);
(120346,Tag_font,[83]);
(120347,Tag_font,[84]);
(120348,Tag_font,[85]);
(120349,Tag_font,[86]);
(120350,Tag_font,[87]);
(120351,Tag_font,[88]);
(120352,Tag_font,[89]);
(120353,Tag_font,[90]);
(120354,Tag_font,[97]);
(120355,Tag_font,[98]);
(120356,Tag_font,[99]);
(120357,Tag_font,[100]);
(120358,Tag_font,[101]);
(120359,Tag_font,[102]);
(120360,Tag_font,[103]);
(120361,Tag_font,[104]);
(120362,Tag_font,[105]);
(120363,Tag_font,[106]);
(120364,Tag_font,[107]);
(120365,Tag_font,[108]);
(120366,Tag_font,[109]);
(120367,Tag_font,[110]);
(120368,Tag_font,[111]);
(120369,Tag_font,[112]);
(120370,Tag_font,[113]);
(120371,Tag_font,[114]);
(120372,Tag_font,[115]);
(120373,Tag_font,[116]);
(120374,Tag_font,[117]);
(120375,Tag_font,[118]);
(120376,Tag_font,[119]);
(120377,Tag_font,[120]);
(120378,Tag_font,[121]);
(120379,Tag_font,[122]);
(120380,Tag_font,[65]);
(120381,Tag_font,[66]);
(120382,Tag_font,[67]);
(120383,Tag_font,[68]);
(120384,Tag_font,[69]);
(120385,Tag_font,[70]);
(120386,Tag_font,[71]);
(120387,Tag_font,[72]);
(120388,Tag_font,[73]);
(120389,Tag_font,[74]);
(120390,Tag_font,[75]);
(120391,Tag_font,[76]);
(120392,Tag_font,[77]);
(120393,Tag_font,[78]);
(120394,Tag_font,[79]);
(120395,Tag_font,[80]);
(120396,Tag_font,[81]);
(120397,Tag_font,[82]);
(120398,Tag_font,[83]);
(120399,Tag_font,[84]);
(120400,Tag_font,[85]);
(120401,Tag_font,[86]);
(120402,Tag_font,[87]);
(120403,Tag_font,[88]);
(120404,Tag_font,[89]);
(120405,Tag_font,[90]);
(120406,Tag_font,[97]);
(120407,Tag_font,[98]);
(120408,Tag_font,[99]);
(120409,Tag_font,[100]);
(120410,Tag_font,[101]);
(120411,Tag_font,[102]);
(120412,Tag_font,[103]);
(120413,Tag_font,[104]);
(120414,Tag_font,[105]);
(120415,Tag_font,[106]);
(120416,Tag_font,[107]);
(120417,Tag_font,[108]);
(120418,Tag_font,[109]);
(120419,Tag_font,[110]);
(120420,Tag_font,[111]);
(120421,Tag_font,[112]);
(120422,Tag_font,[113]);
(120423,Tag_font,[114]);
(120424,Tag_font,[115]);
(120425,Tag_font,[116]);
(120426,Tag_font,[117]);
(120427,Tag_font,[118]);
(120428,Tag_font,[119]);
(120429,Tag_font,[120]);
(120430,Tag_font,[121]);
(120431,Tag_font,[122]);
(120432,Tag_font,[65]);
(120433,Tag_font,[66]);
(120434,Tag_font,[67]);
(120435,Tag_font,[68]);
(120436,Tag_font,[69]);
(120437,Tag_font,[70]);
(120438,Tag_font,[71]);
(120439,Tag_font,[72]);
(120440,Tag_font,[73]);
(120441,Tag_font,[74]);
(120442,Tag_font,[75]);
(120443,Tag_font,[76]);
(120444,Tag_font,[77]);
(120445,Tag_font,[78]);
(120446,Tag_font,[79]);
(120447,Tag_font,[80]);
(120448,Tag_font,[81]);
(120449,Tag_font,[82]);
(120450,Tag_font,[83]);
(120451,Tag_font,[84]);
(120452,Tag_font,[85]);
(120453,Tag_font,[86]);
(120454,Tag_font,[87]);
(120455,Tag_font,[88]);
(120456,Tag_font,[89]);
(120457,Tag_font,[90]);
(120458,Tag_font,[97]);
(120459,Tag_font,[98]);
(120460,Tag_font,[99]);
(120461,Tag_font,[100]);
(120462,Tag_font,[101]);
(120463,Tag_font,[102]);
(120464,Tag_font,[103]);
(120465,Tag_font,[104]);
(120466,Tag_font,[105]);
(120467,Tag_font,[106]);
(120468,Tag_font,[107]);
(120469,Tag_font,[108]);
(120470,Tag_font,[109]);
(120471,Tag_font,[110]);
(120472,Tag_font,[111]);
(120473,Tag_font,[112]);
(120474,Tag_font,[113]);
(120475,Tag_font,[114]);
(120476,Tag_font,[115]);
(120477,Tag_font,[116]);
(120478,Tag_font,[117]);
(120479,Tag_font,[118]);
(120480,Tag_font,[119]);
(120481,Tag_font,[120]);
(120482,Tag_font,[121]);
(120483,Tag_font,[122]);
(120484,Tag_font,[305]);
(120485,Tag_font,[567]);
(120488,Tag_font,[913]);
(120489,Tag_font,[914]);
(120490,Tag_font,[915]);
(120491,Tag_font,[916]);
(120492,Tag_font,[917]);
(120493,Tag_font,[918]);
(120494,Tag_font,[919]);
(120495,Tag_font,[920]);
(120496,Tag_font,[921]);
(120497,Tag_font,[922]);
(120498,Tag_font,[923]);
(120499,Tag_font,[924]);
(120500,Tag_font,[925]);
(120501,Tag_font,[926]);
(120502,Tag_font,[927]);
(120503,Tag_font,[928]);
(120504,Tag_font,[929]);
(120505,Tag_font,[1012]);
(120506,Tag_font,[931]);
(120507,Tag_font,[932]);
(120508,Tag_font,[933]);
(120509,Tag_font,[934]);
(120510,Tag_font,[935]);
(120511,Tag_font,[936]);
(120512,Tag_font,[937]);
(120513,Tag_font,[8711]);
(120514,Tag_font,[945]);
(120515,Tag_font,[946]);
(120516,Tag_font,[947]);
(120517,Tag_font,[948]);
(120518,Tag_font,[949]);
(120519,Tag_font,[950]);
(120520,Tag_font,[951]);
(120521,Tag_font,[952]);
(120522,Tag_font,[953]);
(120523,Tag_font,[954]);
(120524,Tag_font,[955]);
(120525,Tag_font,[956]);
(120526,Tag_font,[957]);
(120527,Tag_font,[958]);
(120528,Tag_font,[959]);
(120529,Tag_font,[960]);
(120530,Tag_font,[961]);
(120531,Tag_font,[962]);
(120532,Tag_font,[963]);
(120533,Tag_font,[964]);
(120534,Tag_font,[965]);
(120535,Tag_font,[966]);
(120536,Tag_font,[967]);
(120537,Tag_font,[968]);
(120538,Tag_font,[969]);
(120539,Tag_font,[8706]);
(120540,Tag_font,[1013]);
(120541,Tag_font,[977]);
(120542,Tag_font,[1008]);
(120543,Tag_font,[981]);
(120544,Tag_font,[1009]);
(120545,Tag_font,[982]);
(120546,Tag_font,[913]);
(120547,Tag_font,[914]);
(120548,Tag_font,[915]);
(120549,Tag_font,[916]);
(120550,Tag_font,[917]);
(120551,Tag_font,[918]);
(120552,Tag_font,[919]);
(120553,Tag_font,[920]);
(120554,Tag_font,[921]);
(120555,Tag_font,[922]);
(120556,Tag_font,[923]);
(120557,Tag_font,[924]);
(120558,Tag_font,[925]);
(120559,Tag_font,[926]);
(120560,Tag_font,[927]);
(120561,Tag_font,[928]);
(120562,Tag_font,[929]);
(120563,Tag_font,[1012]);
(120564,Tag_font,[931]);
(120565,Tag_font,[932]);
(120566,Tag_font,[933]);
(120567,Tag_font,[934]);
(120568,Tag_font,[935]);
(120569,Tag_font,[936]);
(120570,Tag_font,[937]);
(120571,Tag_font,[8711]);
(120572,Tag_font,[945]);
(120573,Tag_font,[946]);
(120574,Tag_font,[947]);
(120575,Tag_font,[948]);
(120576,Tag_font,[949]);
(120577,Tag_font,[950]);
(120578,Tag_font,[951]);
(120579,Tag_font,[952]);
(120580,Tag_font,[953]);
(120581,Tag_font,[954]);
(120582,Tag_font,[955]);
(120583,Tag_font,[956]);
(120584,Tag_font,[957]);
(120585,Tag_font,[958]);
(120586,Tag_font,[959]);
(120587,Tag_font,[960]);
(120588,Tag_font,[961]);
(120589,Tag_font,[962]);
(120590,Tag_font,[963]);
(120591,Tag_font,[964]);
(120592,Tag_font,[965]);
(120593,Tag_font,[966]);
(120594,Tag_font,[967]);
(120595,Tag_font,[968]);
(120596,Tag_font,[969]);
(120597,Tag_font,[8706]);
(120598,Tag_font,[1013]);
(120599,Tag_font,[977]);
(120600,Tag_font,[1008]);
(120601,Tag_font,[981]);
(120602,Tag_font,[1009]);
(120603,Tag_font,[982]);
(120604,Tag_font,[913]);
(120605,Tag_font,[914]);
(120606,Tag_font,[915]);
(120607,Tag_font,[916]);
(120608,Tag_font,[917]);
(120609,Tag_font,[918]);
(120610,Tag_font,[919]);
(120611,Tag_font,[920]);
(120612,Tag_font,[921]);
(120613,Tag_font,[922]);
(120614,Tag_font,[923]);
(120615,Tag_font,[924]);
(120616,Tag_font,[925]);
(120617,Tag_font,[926]);
(120618,Tag_font,[927]);
(120619,Tag_font,[928]);
(120620,Tag_font,[929]);
(120621,Tag_font,[1012]);
(120622,Tag_font,[931]);
(120623,Tag_font,[932]);
(120624,Tag_font,[933]);
(120625,Tag_font,[934]);
(120626,Tag_font,[935]);
(120627,Tag_font,[936]);
(120628,Tag_font,[937]);
(120629,Tag_font,[8711]);
(120630,Tag_font,[945]);
(120631,Tag_font,[946]);
(120632,Tag_font,[947]);
(120633,Tag_font,[948]);
(120634,Tag_font,[949]);
(120635,Tag_font,[950]);
(120636,Tag_font,[951]);
(120637,Tag_font,[952]);
(120638,Tag_font,[953]);
(120639,Tag_font,[954]);
(120640,Tag_font,[955]);
(120641,Tag_font,[956]);
(120642,Tag_font,[957]);
(120643,Tag_font,[958]);
(120644,Tag_font,[959]);
(120645,Tag_font,[960]);
(120646,Tag_font,[961]);
(120647,Tag_font,[962]);
(120648,Tag_font,[963]);
(120649,Tag_font,[964]);
(120650,Tag_font,[965]);
(120651,Tag_font,[966]);
(120652,Tag_font,[967]);
(120653,Tag_font,[968]);
(120654,Tag_font,[969]);
(120655,Tag_font,[8706]);
(120656,Tag_font,[1013]);
(120657,Tag_font,[977]);
(120658,Tag_font,[1008]);
(120659,Tag_font,[981]);
(120660,Tag_font,[1009]);
(120661,Tag_font,[982]);
(120662,Tag_font,[913]);
(120663,Tag_font,[914]);
(120664,Tag_font,[915]);
(120665,Tag_font,[916]);
(120666,Tag_font,[917]);
(120667,Tag_font,[918]);
(120668,Tag_font,[919]);
(120669,Tag_font,[920]);
(120670,Tag_font,[921]);
(120671,Tag_font,[922]);
(120672,Tag_font,[923]);
(120673,Tag_font,[924]);
(120674,Tag_font,[925]);
(120675,Tag_font,[926]);
(120676,Tag_font,[927]);
(120677,Tag_font,[928]);
(120678,Tag_font,[929]);
(120679,Tag_font,[1012]);
(120680,Tag_font,[931]);
(120681,Tag_font,[932]);
(120682,Tag_font,[933]);
(120683,Tag_font,[934]);
(120684,Tag_font,[935]);
(120685,Tag_font,[936]);
(120686,Tag_font,[937]);
(120687,Tag_font,[8711]);
(120688,Tag_font,[945]);
(120689,Tag_font,[946]);
(120690,Tag_font,[947]);
(120691,Tag_font,[948]);
(120692,Tag_font,[949]);
(120693,Tag_font,[950]);
(120694,Tag_font,[951]);
(120695,Tag_font,[952]);
(120696,Tag_font,[953]);
(120697,Tag_font,[954]);
(120698,Tag_font,[955]);
(120699,Tag_font,[956]);
(120700,Tag_font,[957]);
(120701,Tag_font,[958]);
(120702,Tag_font,[959]);
(120703,Tag_font,[960]);
(120704,Tag_font,[961]);
(120705,Tag_font,[962]);
(120706,Tag_font,[963]);
(120707,Tag_font,[964]);
(120708,Tag_font,[965]);
(120709,Tag_font,[966]);
(120710,Tag_font,[967]);
(120711,Tag_font,[968]);
(120712,Tag_font,[969]);
(120713,Tag_font,[8706]);
(120714,Tag_font,[1013]);
(120715,Tag_font,[977]);
(120716,Tag_font,[1008]);
(120717,Tag_font,[981]);
(120718,Tag_font,[1009]);
(120719,Tag_font,[982]);
(120720,Tag_font,[913]);
(120721,Tag_font,[914]);
(120722,Tag_font,[915]);
(120723,Tag_font,[916]);
(120724,Tag_font,[917]);
(120725,Tag_font,[918]);
(120726,Tag_font,[919]);
(120727,Tag_font,[920]);
(120728,Tag_font,[921]);
(120729,Tag_font,[922]);
(120730,Tag_font,[923]);
(120731,Tag_font,[924]);
(120732,Tag_font,[925]);
(120733,Tag_font,[926]);
(120734,Tag_font,[927]);
(120735,Tag_font,[928]);
(120736,Tag_font,[929]);
(120737,Tag_font,[1012]);
(120738,Tag_font,[931]);
(120739,Tag_font,[932]);
(120740,Tag_font,[933]);
(120741,Tag_font,[934]);
(120742,Tag_font,[935]);
(120743,Tag_font,[936]);
(120744,Tag_font,[937]);
(120745,Tag_font,[8711]);
(120746,Tag_font,[945]);
(120747,Tag_font,[946]);
(120748,Tag_font,[947]);
(120749,Tag_font,[948]);
(120750,Tag_font,[949]);
(120751,Tag_font,[950]);
(120752,Tag_font,[951]);
(120753,Tag_font,[952]);
(120754,Tag_font,[953]);
(120755,Tag_font,[954]);
(120756,Tag_font,[955]);
(120757,Tag_font,[956]);
(120758,Tag_font,[957]);
(120759,Tag_font,[958]);
(120760,Tag_font,[959]);
(120761,Tag_font,[960]);
(120762,Tag_font,[961]);
(120763,Tag_font,[962]);
(120764,Tag_font,[963]);
(120765,Tag_font,[964]);
(120766,Tag_font,[965]);
(120767,Tag_font,[966]);
(120768,Tag_font,[967]);
(120769,Tag_font,[968]);
(120770,Tag_font,[969]);
(120771,Tag_font,[8706]);
(120772,Tag_font,[1013]);
(120773,Tag_font,[977]);
(120774,Tag_font,[1008]);
(120775,Tag_font,[981]);
(120776,Tag_font,[1009]);
(120777,Tag_font,[982]);
(120778,Tag_font,[988]);
(120779,Tag_font,[989]);
(120782,Tag_font,[48]);
(120783,Tag_font,[49]);
(120784,Tag_font,[50]);
(120785,Tag_font,[51]);
(120786,Tag_font,[52]);
(120787,Tag_font,[53]);
(120788,Tag_font,[54]);
(120789,Tag_font,[55]);
(120790,Tag_font,[56]);
(120791,Tag_font,[57]);
(120792,Tag_font,[48]);
(120793,Tag_font,[49]);
(120794,Tag_font,[50]);
(120795,Tag_font,[51]);
(120796,Tag_font,[52]);
(120797,Tag_font,[53]);
(120798,Tag_font,[54]);
(120799,Tag_font,[55]);
(120800,Tag_font,[56]);
(120801,Tag_font,[57]);
(120802,Tag_font,[48]);
(120803,Tag_font,[49]);
(120804,Tag_font,[50]);
(120805,Tag_font,[51]);
(120806,Tag_font,[52]);
(120807,Tag_font,[53]);
(120808,Tag_font,[54]);
(120809,Tag_font,[55]);
(120810,Tag_font,[56]);
(120811,Tag_font,[57]);
(120812,Tag_font,[48]);
(120813,Tag_font,[49]);
(120814,Tag_font,[50]);
(120815,Tag_font,[51]);
(120816,Tag_font,[52]);
(120817,Tag_font,[53]);
(120818,Tag_font,[54]);
(120819,Tag_font,[55]);
(120820,Tag_font,[56]);
(120821,Tag_font,[57]);
(120822,Tag_font,[48]);
(120823,Tag_font,[49]);
(120824,Tag_font,[50]);
(120825,Tag_font,[51]);
(120826,Tag_font,[52]);
(120827,Tag_font,[53]);
(120828,Tag_font,[54]);
(120829,Tag_font,[55]);
(120830,Tag_font,[56]);
(120831,Tag_font,[57]);
(126464,Tag_font,[1575]);
(126465,Tag_font,[1576]);
(126466,Tag_font,[1580]);
(126467,Tag_font,[1583]);
(126469,Tag_font,[1608]);
(126470,Tag_font,[1586]);
(126471,Tag_font,[1581]);
(126472,Tag_font,[1591]);
(126473,Tag_font,[1610]);
(126474,Tag_font,[1603]);
(126475,Tag_font,[1604]);
(126476,Tag_font,[1605]);
(126477,Tag_font,[1606]);
(126478,Tag_font,[1587]);
(126479,Tag_font,[1593]);
(126480,Tag_font,[1601]);
(126481,Tag_font,[1589]);
(126482,Tag_font,[1602]);
(126483,Tag_font,[1585]);
(126484,Tag_font,[1588]);
(126485,Tag_font,[1578]);
(126486,Tag_font,[1579]);
(126487,Tag_font,[1582]);
(126488,Tag_font,[1584]);
(126489,Tag_font,[1590]);
(126490,Tag_font,[1592]);
(126491,Tag_font,[1594]);
(126492,Tag_font,[1646]);
(126493,Tag_font,[1722]);
(126494,Tag_font,[1697]);
(126495,Tag_font,[1647]);
(126497,Tag_font,[1576]);
(126498,Tag_font,[1580]);
(126500,Tag_font,[1607]);
(126503,Tag_font,[1581]);
(126505,Tag_font,[1610]);
(126506,Tag_font,[1603]);
(126507,Tag_font,[1604]);
(126508,Tag_font,[1605]);
(126509,Tag_font,[1606]);
(126510,Tag_font,[1587]);
(126511,Tag_font,[1593]);
(126512,Tag_font,[1601]);
(126513,Tag_font,[1589]);
(126514,Tag_font,[1602]);
(126516,Tag_font,[1588]);
(126517,Tag_font,[1578]);
(126518,Tag_font,[1579]);
(126519,Tag_font,[1582]);
(126521,Tag_font,[1590]);
(126523,Tag_font,[1594]);
(126530,Tag_font,[1580]);
(126535,Tag_font,[1581]);
(126537,Tag_font,[1610]);
(126539,Tag_font,[1604]);
(126541,Tag_font,[1606]);
(126542,Tag_font,[1587]);
(126543,Tag_font,[1593]);
(126545,Tag_font,[1589]);
(126546,Tag_font,[1602]);
(126548,Tag_font,[1588]);
(126551,Tag_font,[1582]);
(126553,Tag_font,[1590]);
(126555,Tag_font,[1594]);
(126557,Tag_font,[1722]);
(126559,Tag_font,[1647]);
(126561,Tag_font,[1576]);
(126562,Tag_font,[1580]);
(126564,Tag_font,[1607]);
(126567,Tag_font,[1581]);
(126568,Tag_font,[1591]);
(126569,Tag_font,[1610]);
(126570,Tag_font,[1603]);
(126572,Tag_font,[1605]);
(126573,Tag_font,[1606]);
(126574,Tag_font,[1587]);
(126575,Tag_font,[1593]);
(126576,Tag_font,[1601]);
(126577,Tag_font,[1589]);
(126578,Tag_font,[1602]);
(126580,Tag_font,[1588]);
(126581,Tag_font,[1578]);
(126582,Tag_font,[1579]);
(126583,Tag_font,[1582]);
(126585,Tag_font,[1590]);
(126586,Tag_font,[1592]);
(126587,Tag_font,[1594]);
(126588,Tag_font,[1646]);
(126590,Tag_font,[1697]);
(126592,Tag_font,[1575]);
(126593,Tag_font,[1576]);
(126594,Tag_font,[1580]);
(126595,Tag_font,[1583]);
(126596,Tag_font,[1607]);
(126597,Tag_font,[1608]);
(126598,Tag_font,[1586]);
(126599,Tag_font,[1581]);
(126600,Tag_font,[1591]);
(126601,Tag_font,[1610]);
(126603,Tag_font,[1604]);
(126604,Tag_font,[1605]);
(126605,Tag_font,[1606]);
(126606,Tag_font,[1587]);
(126607,Tag_font,[1593]);
(126608,Tag_font,[1601]);
(126609,Tag_font,[1589]);
(126610,Tag_font,[1602]);
(126611,Tag_font,[1585]);
(126612,Tag_font,[1588]);
(126613,Tag_font,[1578]);
(126614,Tag_font,[1579]);
(126615,Tag_font,[1582]);
(126616,Tag_font,[1584]);
(126617,Tag_font,[1590]);
(126618,Tag_font,[1592]);
(126619,Tag_font,[1594]);
(126625,Tag_font,[1576]);
(126626,Tag_font,[1580]);
(126627,Tag_font,[1583]);
(126629,Tag_font,[1608]);
(126630,Tag_font,[1586]);
(126631,Tag_font,[1581]);
(126632,Tag_font,[1591]);
(126633,Tag_font,[1610]);
(126635,Tag_font,[1604]);
(126636,Tag_font,[1605]);
(126637,Tag_font,[1606]);
(126638,Tag_font,[1587]);
(126639,Tag_font,[1593]);
(126640,Tag_font,[1601]);
(126641,Tag_font,[1589]);
(126642,Tag_font,[1602]);
(126643,Tag_font,[1585]);
(126644,Tag_font,[1588]);
(126645,Tag_font,[1578]);
(126646,Tag_font,[1579]);
(126647,Tag_font,[1582]);
(126648,Tag_font,[1584]);
(126649,Tag_font,[1590]);
(126650,Tag_font,[1592]);
(126651,Tag_font,[1594]);
(127232,Tag_compat,[48;46]);
(127233,Tag_compat,[48;44]);
(127234,Tag_compat,[49;44]);
(127235,Tag_compat,[50;44]);
(127236,Tag_compat,[51;44]);
(127237,Tag_compat,[52;44]);
(127238,Tag_compat,[53;44]);
(127239,Tag_compat,[54;44]);
(127240,Tag_compat,[55;44]);
(127241,Tag_compat,[56;44]);
(127242,Tag_compat,[57;44]);
(127248,Tag_compat,[40;65;41]);
(127249,Tag_compat,[40;66;41]);
(127250,Tag_compat,[40;67;41]);
(127251,Tag_compat,[40;68;41]);
(127252,Tag_compat,[40;69;41]);
(127253,Tag_compat,[40;70;41]);
(127254,Tag_compat,[40;71;41]);
(127255,Tag_compat,[40;72;41]);
(127256,Tag_compat,[40;73;41]);
(127257,Tag_compat,[40;74;41]);
(127258,Tag_compat,[40;75;41]);
(127259,Tag_compat,[40;76;41]);
(127260,Tag_compat,[40;77;41]);
(127261,Tag_compat,[40;78;41]);
(127262,Tag_compat,[40;79;41]);
(127263,Tag_compat,[40;80;41]);
(127264,Tag_compat,[40;81;41]);
(127265,Tag_compat,[40;82;41]);
(127266,Tag_compat,[40;83;41]);
(127267,Tag_compat,[40;84;41]);
(127268,Tag_compat,[40;85;41]);
(127269,Tag_compat,[40;86;41]);
(127270,Tag_compat,[40;87;41]);
(127271,Tag_compat,[40;88;41]);
(127272,Tag_compat,[40;89;41]);
(127273,Tag_compat,[40;90;41]);
(127274,Tag_compat,[12308;83;12309]);
(127275,Tag_circle,[67]);
(127276,Tag_circle,[82]);
(127277,Tag_circle,[67;68]);
(127278,Tag_circle,[87;90]);
(127280,Tag_square,[65]);
(127281,Tag_square,[66]);
(127282,Tag_square,[67]);
(127283,Tag_square,[68]);
(127284,Tag_square,[69]);
(127285,Tag_square,[70]);
(127286,Tag_square,[71]);
(127287,Tag_square,[72]);
(127288,Tag_square,[73]);
(127289,Tag_square,[74]);
(127290,Tag_square,[75]);
(127291,Tag_square,[76]);
(127292,Tag_square,[77]);
(127293,Tag_square,[78]);
(127294,Tag_square,[79]);
(127295,Tag_square,[80]);
(127296,Tag_square,[81]);
(127297,Tag_square,[82]);
(127298,Tag_square,[83]);
(127299,Tag_square,[84]);
(127300,Tag_square,[85]);
(127301,Tag_square,[86]);
(127302,Tag_square,[87]);
(127303,Tag_square,[88]);
(127304,Tag_square,[89]);
(127305,Tag_square,[90]);
(127306,Tag_square,[72;86]);
(127307,Tag_square,[77;86]);
(127308,Tag_square,[83;68]);
(127309,Tag_square,[83;83]);
(127310,Tag_square,[80;80;86]);
(127311,Tag_square,[87;67]);
(127338,Tag_super,[77;67]);
(127339,Tag_super,[77;68]);
(127376,Tag_square,[68;74]);
(127488,Tag_square,[12411;12363]);
(127489,Tag_square,[12467;12467]);
(127490,Tag_square,[12469]);
(127504,Tag_square,[25163]);
(127505,Tag_square,[23383]);
(127506,Tag_square,[21452]);
(127507,Tag_square,[12487]);
(127508,Tag_square,[20108]);
(127509,Tag_square,[22810]);
(127510,Tag_square,[35299]);
(127511,Tag_square,[22825]);
(127512,Tag_square,[20132]);
(127513,Tag_square,[26144]);
(127514,Tag_square,[28961]);
(127515,Tag_square,[26009]);
(127516,Tag_square,[21069]);
(127517,Tag_square,[24460]);
(127518,Tag_square,[20877]);
(127519,Tag_square,[26032]);
(127520,Tag_square,[21021]);
(127521,Tag_square,[32066]);
(127522,Tag_square,[29983]);
(127523,Tag_square,[36009]);
(127524,Tag_square,[22768]);
(127525,Tag_square,[21561]);
(127526,Tag_square,[28436]);
(127527,Tag_square,[25237]);
(127528,Tag_square,[25429]);
(127529,Tag_square,[19968]);
(127530,Tag_square,[19977]);
(127531,Tag_square,[36938]);
(127532,Tag_square,[24038]);
(127533,Tag_square,[20013]);
(127534,Tag_square,[21491]);
(127535,Tag_square,[25351]);
(127536,Tag_square,[36208]);
(127537,Tag_square,[25171]);
(127538,Tag_square,[31105]);
(127539,Tag_square,[31354]);
(127540,Tag_square,[21512]);
(127541,Tag_square,[28288]);
(127542,Tag_square,[26377]);
(127543,Tag_square,[26376]);
(127544,Tag_square,[30003]);
(127545,Tag_square,[21106]);
(127546,Tag_square,[21942]);
(127547,Tag_square,[37197]);
(127552,Tag_compat,[12308;26412;12309]);
(127553,Tag_compat,[12308;19977;12309]);
(127554,Tag_compat,[12308;20108;12309]);
(127555,Tag_compat,[12308;23433;12309]);
(127556,Tag_compat,[12308;28857;12309]);
(127557,Tag_compat,[12308;25171;12309]);
(127558,Tag_compat,[12308;30423;12309]);
(127559,Tag_compat,[12308;21213;12309]);
(127560,Tag_compat,[12308;25943;12309]);
(127568,Tag_circle,[24471]);
(127569,Tag_circle,[21487]);
(194560,Canonical,[20029]);
(194561,Canonical,[20024]);
(194562,Canonical,[20033]);
(194563,Canonical,[131362]);
(194564,Canonical,[20320]);
(194565,Canonical,[20398]);
(194566,Canonical,[20411]);
(194567,Canonical,[20482]);
(194568,Canonical,[20602]);
(194569,Canonical,[20633]);
(194570,Canonical,[20711]);
(194571,Canonical,[20687]);
(194572,Canonical,[13470]);
(194573,Canonical,[132666]);
(194574,Canonical,[20813]);
(194575,Canonical,[20820]);
(194576,Canonical,[20836]);
(194577,Canonical,[20855]);
(194578,Canonical,[132380]);
(194579,Canonical,[13497]);
(194580,Canonical,[20839]);
(194581,Canonical,[20877]);
(194582,Canonical,[132427]);
(194583,Canonical,[20887]);
(194584,Canonical,[20900]);
(194585,Canonical,[20172]);
(194586,Canonical,[20908]);
(194587,Canonical,[20917]);
(194588,Canonical,[168415]);
(194589,Canonical,[20981]);
(194590,Canonical,[20995]);
(194591,Canonical,[13535]);
(194592,Canonical,[21051]);
(194593,Canonical,[21062]);
(194594,Canonical,[21106]);
(194595,Canonical,[21111]);
(194596,Canonical,[13589]);
(194597,Canonical,[21191]);
(194598,Canonical,[21193]);
(194599,Canonical,[21220]);
(194600,Canonical,[21242]);
(194601,Canonical,[21253]);
(194602,Canonical,[21254]);
(194603,Canonical,[21271]);
(194604,Canonical,[21321]);
(194605,Canonical,[21329]);
(194606,Canonical,[21338]);
(194607,Canonical,[21363]);
(194608,Canonical,[21373]);
(194609,Canonical,[21375]);
(194610,Canonical,[21375]);
(194611,Canonical,[21375]);
(194612,Canonical,[133676]);
(194613,Canonical,[28784]);
(194614,Canonical,[21450]);
(194615,Canonical,[21471]);
(194616,Canonical,[133987]);
(194617,Canonical,[21483]);
(194618,Canonical,[21489]);
(194619,Canonical,[21510]);
(194620,Canonical,[21662]);
(194621,Canonical,[21560]);
(194622,Canonical,[21576]);
(194623,Canonical,[21608]);
(194624,Canonical,[21666]);
(194625,Canonical,[21750]);
(194626,Canonical,[21776]);
(194627,Canonical,[21843]);
(194628,Canonical,[21859]);
(194629,Canonical,[21892]);
(194630,Canonical,[21892]);
(194631,Canonical,[21913]);
(194632,Canonical,[21931]);
(194633,Canonical,[21939]);
(194634,Canonical,[21954]);
(194635,Canonical,[22294]);
(194636,Canonical,[22022]);
(194637,Canonical,[22295]);
(194638,Canonical,[22097]);
(194639,Canonical,[22132]);
(194640,Canonical,[20999]);
(194641,Canonical,[22766]);
(194642,Canonical,[22478]);
(194643,Canonical,[22516]);
(194644,Canonical,[22541]);
(194645,Canonical,[22411]);
(194646,Canonical,[22578]);
(194647,Canonical,[22577]);
(194648,Canonical,[22700]);
(194649,Canonical,[136420]);
(194650,Canonical,[22770]);
(194651,Canonical,[22775]);
(194652,Canonical,[22790]);
(194653,Canonical,[22810]);
(194654,Canonical,[22818]);
(194655,Canonical,[22882]);
(194656,Canonical,[136872]);
(194657,Canonical,[136938]);
(194658,Canonical,[23020]);
(194659,Canonical,[23067]);
(194660,Canonical,[23079]);
(194661,Canonical,[23000]);
(194662,Canonical,[23142]);
(194663,Canonical,[14062]);
(194664,Canonical,[14076]);
(194665,Canonical,[23304]);
(194666,Canonical,[23358]);
(194667,Canonical,[23358]);
(194668,Canonical,[137672]);
(194669,Canonical,[23491]);
(194670,Canonical,[23512]);
(194671,Canonical,[23527]);
(194672,Canonical,[23539]);
(194673,Canonical,[138008]);
(194674,Canonical,[23551]);
(194675,Canonical,[23558]);
(194676,Canonical,[24403]);
(194677,Canonical,[23586]);
(194678,Canonical,[14209]);
(194679,Canonical,[23648]);
(194680,Canonical,[23662]);
(194681,Canonical,[23744]);
(194682,Canonical,[23693]);
(194683,Canonical,[138724]);
(194684,Canonical,[23875]);
(194685,Canonical,[138726]);
(194686,Canonical,[23918]);
(194687,Canonical,[23915]);
(194688,Canonical,[23932]);
(194689,Canonical,[24033]);
(194690,Canonical,[24034]);
(194691,Canonical,[14383]);
(194692,Canonical,[24061]);
(194693,Canonical,[24104]);
(194694,Canonical,[24125]);
(194695,Canonical,[24169]);
(194696,Canonical,[14434]);
(194697,Canonical,[139651]);
(194698,Canonical,[14460]);
(194699,Canonical,[24240]);
(194700,Canonical,[24243]);
(194701,Canonical,[24246]);
(194702,Canonical,[24266]);
(194703,Canonical,[172946]);
(194704,Canonical,[24318]);
(194705,Canonical,[140081]);
(194706,Canonical,[140081]);
(194707,Canonical,[33281]);
(194708,Canonical,[24354]);
(194709,Canonical,[24354]);
(194710,Canonical,[14535]);
(194711,Canonical,[144056]);
(194712,Canonical,[156122]);
(194713,Canonical,[24418]);
(194714,Canonical,[24427]);
(194715,Canonical,[14563]);
(194716,Canonical,[24474]);
(194717,Canonical,[24525]);
(194718,Canonical,[24535]);
(194719,Canonical,[24569]);
(194720,Canonical,[24705]);
(194721,Canonical,[14650]);
(194722,Canonical,[14620]);
(194723,Canonical,[24724]);
(194724,Canonical,[141012]);
(194725,Canonical,[24775]);
(194726,Canonical,[24904]);
(194727,Canonical,[24908]);
(194728,Canonical,[24910]);
(194729,Canonical,[24908]);
(194730,Canonical,[24954]);
(194731,Canonical,[24974]);
(194732,Canonical,[25010]);
(194733,Canonical,[24996]);
(194734,Canonical,[25007]);
(194735,Canonical,[25054]);
(194736,Canonical,[25074]);
(194737,Canonical,[25078]);
(194738,Canonical,[25104]);
(194739,Canonical,[25115]);
(194740,Canonical,[25181]);
(194741,Canonical,[25265]);
(194742,Canonical,[25300]);
(194743,Canonical,[25424]);
(194744,Canonical,[142092]);
(194745,Canonical,[25405]);
(194746,Canonical,[25340]);
(194747,Canonical,[25448]);
(194748,Canonical,[25475]);
(194749,Canonical,[25572]);
(194750,Canonical,[142321]);
(194751,Canonical,[25634]);
(194752,Canonical,[25541]);
(194753,Canonical,[25513]);
(194754,Canonical,[14894]);
(194755,Canonical,[25705]);
(194756,Canonical,[25726]);
(194757,Canonical,[25757]);
(194758,Canonical,[25719]);
(194759,Canonical,[14956]);
(194760,Canonical,[25935]);
(194761,Canonical,[25964]);
(194762,Canonical,[143370]);
(194763,Canonical,[26083]);
(194764,Canonical,[26360]);
(194765,Canonical,[26185]);
(194766,Canonical,[15129]);
(194767,Canonical,[26257]);
(194768,Canonical,[15112]);
(194769,Canonical,[15076]);
(194770,Canonical,[20882]);
(194771,Canonical,[20885]);
(194772,Canonical,[26368]);
(194773,Canonical,[26268]);
(194774,Canonical,[32941]);
(194775,Canonical,[17369]);
(194776,Canonical,[26391]);
(194777,Canonical,[26395]);
(194778,Canonical,[26401]);
(194779,Canonical,[26462]);
(194780,Canonical,[26451]);
(194781,Canonical,[144323]);
(194782,Canonical,[15177]);
(194783,Canonical,[26618]);
(194784,Canonical,[26501]);
(194785,Canonical,[26706]);
(194786,Canonical,[26757]);
(194787,Canonical,[144493]);
(194788,Canonical,[26766]);
(194789,Canonical,[26655]);
(194790,Canonical,[26900]);
(194791,Canonical,[15261]);
(194792,Canonical,[26946]);
(194793,Canonical,[27043]);
(194794,Canonical,[27114]);
(194795,Canonical,[27304]);
(194796,Canonical,[145059]);
(194797,Canonical,[27355]);
(194798,Canonical,[15384]);
(194799,Canonical,[27425]);
(194800,Canonical,[145575]);
(194801,Canonical,[27476]);
(194802,Canonical,[15438]);
(194803,Canonical,[27506]);
(194804,Canonical,[27551]);
(194805,Canonical,[27578]);
(194806,Canonical,[27579]);
(194807,Canonical,[146061]);
(194808,Canonical,[138507]);
(194809,Canonical,[146170]);
(194810,Canonical,[27726]);
(194811,Canonical,[146620]);
(194812,Canonical,[27839]);
(194813,Canonical,[27853]);
(194814,Canonical,[27751]);
(194815,Canonical,[27926]);
(194816,Canonical,[27966]);
(194817,Canonical,[28023]);
(194818,Canonical,[27969]);
(194819,Canonical,[28009]);
(194820,Canonical,[28024]);
(194821,Canonical,[28037]);
(194822,Canonical,[146718]);
(194823,Canonical,[27956]);
(194824,Canonical,[28207]);
(194825,Canonical,[28270]);
(194826,Canonical,[15667]);
(194827,Canonical,[28363]);
(194828,Canonical,[28359]);
(194829,Canonical,[147153]);
(194830,Canonical,[28153]);
(194831,Canonical,[28526]);
(194832,Canonical,[147294]);
(194833,Canonical,[147342]);
(194834,Canonical,[28614]);
(194835,Canonical,[28729]);
(194836,Canonical,[28702]);
(194837,Canonical,[28699]);
(194838,Canonical,[15766]);
(194839,Canonical,[28746]);
(194840,Canonical,[28797]);
(194841,Canonical,[28791]);
(194842,Canonical,[28845]);
(194843,Canonical,[132389]);
(194844,Canonical,[28997]);
(194845,Canonical,[148067]);
(194846,Canonical,[29084]);
(194847,Canonical,[148395]);
(194848,Canonical,[29224]);
(194849,Canonical,[29237]);
(194850,Canonical,[29264]);
(194851,Canonical,[149000]);
(194852,Canonical,[29312]);
(194853,Canonical,[29333]);
(194854,Canonical,[149301]);
(194855,Canonical,[149524]);
(194856,Canonical,[29562]);
(194857,Canonical,[29579]);
(194858,Canonical,[16044]);
(194859,Canonical,[29605]);
(194860,Canonical,[16056]);
(194861,Canonical,[16056]);
(194862,Canonical,[29767]);
(194863,Canonical,[29788]);
(194864,Canonical,[29809]);
(194865,Canonical,[29829]);
(194866,Canonical,[29898]);
(194867,Canonical,[16155]);
(194868,Canonical,[29988]);
(194869,Canonical,[150582]);
(194870,Canonical,[30014]);
(194871,Canonical,[150674]);
(194872,Canonical,[30064]);
(194873,Canonical,[139679]);
(194874,Canonical,[30224]);
(194875,Canonical,[151457]);
(194876,Canonical,[151480]);
(194877,Canonical,[151620]);
(194878,Canonical,[16380]);
(194879,Canonical,[16392]);
(194880,Canonical,[30452]);
(194881,Canonical,[151795]);
(194882,Canonical,[151794]);
(194883,Canonical,[151833]);
(194884,Canonical,[151859]);
(194885,Canonical,[30494]);
(194886,Canonical,[30495]);
(194887,Canonical,[30495]);
(194888,Canonical,[30538]);
(194889,Canonical,[16441]);
(194890,Canonical,[30603]);
(194891,Canonical,[16454]);
(194892,Canonical,[16534]);
(194893,Canonical,[152605]);
(194894,Canonical,[30798]);
(194895,Canonical,[30860]);
(194896,Canonical,[30924]);
(194897,Canonical,[16611]);
(194898,Canonical,[153126]);
(194899,Canonical,[31062]);
(194900,Canonical,[153242]);
(194901,Canonical,[153285]);
(194902,Canonical,[31119]);
(194903,Canonical,[31211]);
(194904,Canonical,[16687]);
(194905,Canonical,[31296]);
(194906,Canonical,[31306]);
(194907,Canonical,[31311]);
(194908,Canonical,[153980]);
(194909,Canonical,[154279]);
(194910,Canonical,[154279]);
(194911,Canonical,[31470]);
(194912,Canonical,[16898]);
(194913,Canonical,[154539]);
(194914,Canonical,[31686]);
(194915,Canonical,[31689]);
(194916,Canonical,[16935]);
(194917,Canonical,[154752]);
(194918,Canonical,[31954]);
(194919,Canonical,[17056]);
(194920,Canonical,[31976]);
(194921,Canonical,[31971]);
(194922,Canonical,[32000]);
(194923,Canonical,[155526]);
(194924,Canonical,[32099]);
(194925,Canonical,[17153]);
(194926,Canonical,[32199]);
(194927,Canonical,[32258]);
(194928,Canonical,[32325]);
(194929,Canonical,[17204]);
(194930,Canonical,[156200]);
(194931,Canonical,[156231]);
(194932,Canonical,[17241]);
(194933,Canonical,[156377]);
(194934,Canonical,[32634]);
(194935,Canonical,[156478]);
(194936,Canonical,[32661]);
(194937,Canonical,[32762]);
(194938,Canonical,[32773]);
(194939,Canonical,[156890]);
(194940,Canonical,[156963]);
(194941,Canonical,[32864]);
(194942,Canonical,[157096]);
(194943,Canonical,[32880]);
(194944,Canonical,[144223]);
(194945,Canonical,[17365]);
(194946,Canonical,[32946]);
(194947,Canonical,[33027]);
(194948,Canonical,[17419]);
(194949,Canonical,[33086]);
(194950,Canonical,[23221]);
(194951,Canonical,[157607]);
(194952,Canonical,[157621]);
(194953,Canonical,[144275]);
(194954,Canonical,[144284]);
(194955,Canonical,[33281]);
(194956,Canonical,[33284]);
(194957,Canonical,[36766]);
(194958,Canonical,[17515]);
(194959,Canonical,[33425]);
(194960,Canonical,[33419]);
(194961,Canonical,[33437]);
(194962,Canonical,[21171]);
(194963,Canonical,[33457]);
(194964,Canonical,[33459]);
(194965,Canonical,[33469]);
(194966,Canonical,[33510]);
(194967,Canonical,[158524]);
(194968,Canonical,[33509]);
(194969,Canonical,[33565]);
(194970,Canonical,[33635]);
(194971,Canonical,[33709]);
(194972,Canonical,[33571]);
(194973,Canonical,[33725]);
(194974,Canonical,[33767]);
(194975,Canonical,[33879]);
(194976,Canonical,[33619]);
(194977,Canonical,[33738]);
(194978,Canonical,[33740]);
(194979,Canonical,[33756]);
(194980,Canonical,[158774]);
(194981,Canonical,[159083]);
(194982,Canonical,[158933]);
(194983,Canonical,[17707]);
(194984,Canonical,[34033]);
(194985,Canonical,[34035]);
(194986,Canonical,[34070]);
(194987,Canonical,[160714]);
(194988,Canonical,[34148]);
(194989,Canonical,[159532]);
(194990,Canonical,[17757]);
(194991,Canonical,[17761]);
(194992,Canonical,[159665]);
(194993,Canonical,[159954]);
(194994,Canonical,[17771]);
(194995,Canonical,[34384]);
(194996,Canonical,[34396]);
(194997,Canonical,[34407]);
(194998,Canonical,[34409]);
(194999,Canonical,[34473]);
(195000,Canonical,[34440]);
(195001,Canonical,[34574]);
(195002,Canonical,[34530]);
(195003,Canonical,[34681]);
(195004,Canonical,[34600]);
(195005,Canonical,[34667]);
(195006,Canonical,[34694]);
(195007,Canonical,[17879]);
(195008,Canonical,[34785]);
(195009,Canonical,[34817]);
(195010,Canonical,[17913]);
(195011,Canonical,[34912]);
(195012,Canonical,[34915]);
(195013,Canonical,[161383]);
(195014,Canonical,[35031]);
(195015,Canonical,[35038]);
(195016,Canonical,[17973]);
(195017,Canonical,[35066]);
(195018,Canonical,[13499]);
(195019,Canonical,[161966]);
(195020,Canonical,[162150]);
(195021,Canonical,[18110]);
(195022,Canonical,[18119]);
(195023,Canonical,[35488]);
(195024,Canonical,[35565]);
(195025,Canonical,[35722]);
(195026,Canonical,[35925]);
(195027,Canonical,[162984]);
(195028,Canonical,[36011]);
(195029,Canonical,[36033]);
(195030,Canonical,[36123]);
(195031,Canonical,[36215]);
(195032,Canonical,[163631]);
(195033,Canonical,[133124]);
(195034,Canonical,[36299]);
(195035,Canonical,[36284]);
(195036,Canonical,[36336]);
(195037,Canonical,[133342]);
(195038,Canonical,[36564]);
(195039,Canonical,[36664]);
(195040,Canonical,[165330]);
(195041,Canonical,[165357]);
(195042,Canonical,[37012]);
(195043,Canonical,[37105]);
(195044,Canonical,[37137]);
(195045,Canonical,[165678]);
(195046,Canonical,[37147]);
(195047,Canonical,[37432]);
(195048,Canonical,[37591]);
(195049,Canonical,[37592]);
(195050,Canonical,[37500]);
(195051,Canonical,[37881]);
(195052,Canonical,[37909]);
(195053,Canonical,[166906]);
(195054,Canonical,[38283]);
(195055,Canonical,[18837]);
(195056,Canonical,[38327]);
(195057,Canonical,[167287]);
(195058,Canonical,[18918]);
(195059,Canonical,[38595]);
(195060,Canonical,[23986]);
(195061,Canonical,[38691]);
(195062,Canonical,[168261]);
(195063,Canonical,[168474]);
(195064,Canonical,[19054]);
(195065,Canonical,[19062]);
(195066,Canonical,[38880]);
(195067,Canonical,[168970]);
(195068,Canonical,[19122]);
(195069,Canonical,[169110]);
(195070,Canonical,[38923]);
(195071,Canonical,[38923]);
(195072,Canonical,[38953]);
(195073,Canonical,[169398]);
(195074,Canonical,[39138]);
(195075,Canonical,[19251]);
(195076,Canonical,[39209]);
(195077,Canonical,[39335]);
(195078,Canonical,[39362]);
(195079,Canonical,[39422]);
(195080,Canonical,[19406]);
(195081,Canonical,[170800]);
(195082,Canonical,[39698]);
(195083,Canonical,[40000]);
(195084,Canonical,[40189]);
(195085,Canonical,[19662]);
(195086,Canonical,[19693]);
(195087,Canonical,[40295]);
(195088,Canonical,[172238]);
(195089,Canonical,[19704]);
(195090,Canonical,[172293]);
(195091,Canonical,[172558]);
(195092,Canonical,[172689]);
(195093,Canonical,[40635]);
(195094,Canonical,[19798]);
(195095,Canonical,[40697]);
(195096,Canonical,[40702]);
(195097,Canonical,[40709]);
(195098,Canonical,[40719]);
(195099,Canonical,[40726]);
(195100,Canonical,[40763]);
(195101,Canonical,[173568])
].

(** CompositionExclusions.txt *)
Definition ucd_composition_exclusions : list Z := [2392;2393;2394;2395;2396;2397;2398;2399;2524;2525;2527;2611;2614;2649;2650;2651;2654;2908;2909;3907;3917;3922;3927;3932;3945;3958;3960;3987;3997;4002;4007;4012;4025;64285;64287;64298;64299;64300;64301;64302;64303;64304;64305;64306;64307;64308;64309;64310;64312;64313;64314;64315;64316;64318;64320;64321;64323;64324;64326;64327;64328;64329;64330;64331;64332;64333;64334;10972;119134;119135;119136;119137;119138;119139;119140;119227;119228;119229;119230;119231;119232].

(** GraphemeBreakProperty.txt: (first, last, value), in file order. *)
Definition ucd_grapheme_break : list (Z * Z * gcb) := [
(1536,1541,G_PREPEND);
(1757,1757,G_PREPEND);
(1807,1807,G_PREPEND);
(2274,2274,G_PREPEND);
(3406,3406,G_PREPEND);
(69821,69821,G_PREPEND);
(70082,70083,G_PREPEND);
(13,13,G_CR);
(10,10,G_LF);
(0,9,G_CONTROL);
(11,12,G_CONTROL);
(14,31,G_CONTROL);
(127,159,G_CONTROL);
(173,173,G_CONTROL);
(1564,1564,G_CONTROL);
(6158,6158,G_CONTROL);
(8203,8203,G_CONTROL);
(8206,8207,G_CONTROL);
(8232,8232,G_CONTROL);
(8233,8233,G_CONTROL);
(8234,8238,G_CONTROL);
(8288,8292,G_CONTROL);
(8293,8293,G_CONTROL);
(8294,8303,G_CONTROL);
(55296,57343,G_CONTROL);
(65279,65279,G_CONTROL);
(65520,65528,G_CONTROL);
(65529,65531,G_CONTROL);
(113824,113827,G_CONTROL);
(119155,119162,G_CONTROL);
(917504,917504,G_CONTROL);
(917505,917505,G_CONTROL);
(917506,917535,G_CONTROL);
(917632,917759,G_CONTROL);
(918000,921599,G_CONTROL);
(768,879,G_EXTEND);
(1155,1159,G_EXTEND);
(1160,1161,G_EXTEND);
(1425,1469,G_EXTEND);
(1471,1471,G_EXTEND);
(1473,1474,G_EXTEND);
(1476,1477,G_EXTEND);
(1479,1479,G_EXTEND);
(1552,1562,G_EXTEND);
(1611,1631,G_EXTEND);
(1648,1648,G_EXTEND);
(1750,1756,G_EXTEND);
(1759,1764,G_EXTEND);
(1767,1768,G_EXTEND);
(1770,1773,G_EXTEND);
(1809,1809,G_EXTEND);
(1840,1866,G_EXTEND);
(1958,1968,G_EXTEND);
(2027,2035,G_EXTEND);
(2070,2073,G_EXTEND);
(2075,2083,G_EXTEND);
(2085,2087,G_EXTEND);
(2089,2093,G_EXTEND);
(2137,2139,G_EXTEND);
(2260,2273,G_EXTEND);
(2275,2306,G_EXTEND);
(2362,2362,G_EXTEND);
(2364,2364,G_EXTEND);
(2369,2376,G_EXTEND);
(2381,2381,G_EXTEND);
(2385,2391,G_EXTEND);
(2402,2403,G_EXTEND);
(2433,2433,G_EXTEND);
(2492,2492,G_EXTEND);
(2494,2494,G_EXTEND);
(2497,2500,G_EXTEND);
(2509,2509,G_EXTEND);
(2519,2519,G_EXTEND);
(2530,2531,G_EXTEND);
(2561,2562,G_EXTEND);
(2620,2620,G_EXTEND);
(2625,2626,G_EXTEND);
(2631,2632,G_EXTEND);
(2635,2637,G_EXTEND);
(2641,2641,G_EXTEND);
(2672,2673,G_EXTEND);
(2677,2677,G_EXTEND);
(2689,2690,G_EXTEND);
(2748,2748,G_EXTEND);
(2753,2757,G_EXTEND);
(2759,2760,G_EXTEND);
(2765,2765,G_EXTEND);
(2786,2787,G_EXTEND);
(2817,2817,G_EXTEND);
(2876,2876,G_EXTEND);
(2878,2878,G_EXTEND);
(2879,2879,G_EXTEND);
(2881,2884,G_EXTEND);
(2893,2893,G_EXTEND);
(2902,2902,G_EXTEND);
(2903,2903,G_EXTEND);
(2914,2915,G_EXTEND);
(2946,2946,G_EXTEND);
(3006,3006,G_EXTEND);
(3008,3008,G_EXTEND);
(3021,3021,G_EXTEND);
(3031,3031,G_EXTEND);
(3072,3072,G_EXTEND);
(3134,3136,G_EXTEND);
(3142,3144,G_EXTEND);
(3146,3149,G_EXTEND);
(3157,3158,G_EXTEND);
(3170,3171,G_EXTEND);
(3201,3201,G_EXTEND);
(3260,3260,G_EXTEND);
(3263,3263,G_EXTEND);
(3266,3266,G_EXTEND);
(3270,3270,G_EXTEND);
(3276,3277,G_EXTEND);
(3285,3286,G_EXTEND);
(3298,3299,G_EXTEND);
(3329,3329,G_EXTEND);
(3390,3390,G_EXTEND);
(3393,3396,G_EXTEND);
(3405,3405,G_EXTEND);
(3415,3415,G_EXTEND);
(3426,3427,G_EXTEND);
(3530,3530,G_EXTEND);
(3535,3535,G_EXTEND);
(3538,3540,G_EXTEND);
(3542,3542,G_EXTEND);
(3551,3551,G_EXTEND);
(3633,3633,G_EXTEND);
(3636,3642,G_EXTEND);
(3655,3662,G_EXTEND);
(3761,3761,G_EXTEND);
(3764,3769,G_EXTEND);
(3771,3772,G_EXTEND);
(3784,3789,G_EXTEND);
(3864,3865,G_EXTEND);
(3893,3893,G_EXTEND);
(3895,3895,G_EXTEND);
(3897,3897,G_EXTEND);
(3953,3966,G_EXTEND);
(3968,3972,G_EXTEND);
(3974,3975,G_EXTEND);
(3981,3991,G_EXTEND);
(3993,4028,G_EXTEND);
(4038,4038,G_EXTEND);
(4141,4144,G_EXTEND);
(4146,4151,G_EXTEND);
(4153,4154,G_EXTEND);
(4157,4158,G_EXTEND);
(4184,4185,G_EXTEND);
(4190,4192,G_EXTEND);
(4209,4212,G_EXTEND);
(4226,4226,G_EXTEND);
(4229,4230,G_EXTEND);
(4237,4237,G_EXTEND);
(4253,4253,G_EXTEND);
(4957,4959,G_EXTEND);
(5906,5908,G_EXTEND);
(5938,5940,G_EXTEND);
(5970,5971,G_EXTEND);
(6002,6003,G_EXTEND);
(6068,6069,G_EXTEND);
(6071,6077,G_EXTEND);
(6086,6086,G_EXTEND);
(6089,6099,G_EXTEND);
(6109,6109,G_EXTEND);
(6155,6157,G_EXTEND);
(6277,6278,G_EXTEND);
(6313,6313,G_EXTEND);
(6432,6434,G_EXTEND);
(6439,6440,G_EXTEND);
(6450,6450,G_EXTEND);
(6457,6459,G_EXTEND);
(6679,6680,G_EXTEND);
(6683,6683,G_EXTEND);
(6742,6742,G_EXTEND);
(6744,6750,G_EXTEND);
(6752,6752,G_EXTEND);
(6754,6754,G_EXTEND);
(6757,6764,G_EXTEND);
(6771,6780,G_EXTEND);
(6783,6783,G_EXTEND);
(6832,6845,G_EXTEND);
(6846,6846,G_EXTEND);
(6912,6915,G_EXTEND);
(6964,6964,G_EXTEND);
(6966,6970,G_EXTEND);
(6972,6972,G_EXTEND);
(6978,6978,G_EXTEND);
(7019,7027,G_EXTEND);
(7040,7041,G_EXTEND);
(7074,7077,G_EXTEND);
(7080,7081,G_EXTEND);
(7083,7085,G_EXTEND);
(7142,7142,G_EXTEND);
(7144,7145,G_EXTEND);
(7149,7149,G_EXTEND);
(7151,7153,G_EXTEND);
(7212,7219,G_EXTEND);
(7222,7223,G_EXTEND);
(7376,7378,G_EXTEND);
(7380,7392,G_EXTEND);
(7394,7400,G_EXTEND);
(7405,7405,G_EXTEND);
(7412,7412,G_EXTEND);
(7416,7417,G_EXTEND);
(7616,7669,G_EXTEND);
(7675,7679,G_EXTEND);
(8204,8204,G_EXTEND);
(8400,8412,G_EXTEND);
(8413,8416,G_EXTEND);
(8417,8417,G_EXTEND);
(8418,8420,G_EXTEND);
(8421,8432,G_EXTEND);
(11503,11505,G_EXTEND);
(11647,11647,G_EXTEND);
(11744,11775,G_EXTEND);
(12330,12333,G_EXTEND);
(12334,12335,G_EXTEND);
(12441,12442,G_EXTEND);
(42607,42607,G_EXTEND);
(42608,42610,G_EXTEND);
(42612,42621,G_EXTEND);
(42654,42655,G_EXTEND);
(42736,42737,G_EXTEND);
(43010,43010,G_EXTEND);
(43014,43014,G_EXTEND);
(43019,43019,G_EXTEND);
(43045,43046,G_EXTEND);
(43204,43205,G_EXTEND);
(43232,43249,G_EXTEND);
(43302,43309,G_EXTEND);
(43335,43345,G_EXTEND);
(43392,43394,G_EXTEND);
(43443,43443,G_EXTEND);
(43446,43449,G_EXTEND);
(43452,43452,G_EXTEND);
(43493,43493,G_EXTEND);
(43561,43566,G_EXTEND);
(43569,43570,G_EXTEND);
(43573,43574,G_EXTEND);
(43587,43587,G_EXTEND);
(43596,43596,G_EXTEND);
(43644,43644,G_EXTEND);
(43696,43696,G_EXTEND);
(43698,43700,G_EXTEND);
(43703,43704,G_EXTEND);
(43710,43711,G_EXTEND);
(43713,43713,G_EXTEND);
(43756,43757,G_EXTEND);
(43766,43766,G_EXTEND);
(44005,44005,G_EXTEND);
(44008,44008,G_EXTEND);
(44013,44013,G_EXTEND);
(64286,64286,G_EXTEND);
(65024,65039,G_EXTEND);
(65056,65071,G_EXTEND);
(65438,65439,G_EXTEND);
(66045,66045,G_EXTEND);
(66272,66272,G_EXTEND);
(66422,66426,G_EXTEND);
(68097,68099,G_EXTEND);
(68101,68102,G_EXTEND);
(68108,68111,G_EXTEND);
(68152,68154,G_EXTEND);
(68159,68159,G_EXTEND);
(68325,68326,G_EXTEND);
(69633,69633,G_EXTEND);
(69688,69702,G_EXTEND);
(69759,69761,G_EXTEND);
(69811,69814,G_EXTEND);
(69817,69818,G_EXTEND);
(69888,69890,G_EXTEND);
(69927,69931,G_EXTEND);
(69933,69940,G_EXTEND);
(70003,70003,G_EXTEND);
(70016,70017,G_EXTEND);
(70070,70078,G_EXTEND);
(70090,70092,G_EXTEND);
(70191,70193,G_EXTEND);
(70196,70196,G_EXTEND);
(70198,70199,G_EXTEND);
(70206,70206,G_EXTEND);
(70367,70367,G_EXTEND);
(70371,70378,G_EXTEND);
(70400,70401,G_EXTEND);
(70460,70460,G_EXTEND);
(70462,70462,G_EXTEND);
(70464,70464,G_EXTEND);
(70487,70487,G_EXTEND);
(70502,70508,G_EXTEND);
(70512,70516,G_EXTEND);
(70712,70719,G_EXTEND);
(70722,70724,G_EXTEND);
(70726,70726,G_EXTEND);
(70832,70832,G_EXTEND);
(70835,70840,G_EXTEND);
(70842,70842,G_EXTEND);
(70845,70845,G_EXTEND);
(70847,70848,G_EXTEND);
(70850,70851,G_EXTEND);
(71087,71087,G_EXTEND);
(71090,71093,G_EXTEND);
(71100,71101,G_EXTEND);
(71103,71104,G_EXTEND);
(71132,71133,G_EXTEND);
(71219,71226,G_EXTEND);
(71229,71229,G_EXTEND);
(71231,71232,G_EXTEND);
(71339,71339,G_EXTEND);
(71341,71341,G_EXTEND);
(71344,71349,G_EXTEND);
(71351,71351,G_EXTEND);
(71453,71455,G_EXTEND);
(71458,71461,G_EXTEND);
(71463,71467,G_EXTEND);
(72752,72758,G_EXTEND);
(72760,72765,G_EXTEND);
(72767,72767,G_EXTEND);
(72850,72871,G_EXTEND);
(72874,72880,G_EXTEND);
(72882,72883,G_EXTEND);
(72885,72886,G_EXTEND);
(92912,92916,G_EXTEND);
(92976,92982,G_EXTEND);
(94095,94098,G_EXTEND);
(113821,113822,G_EXTEND);
(119141,119141,G_EXTEND);
(119143,119145,G_EXTEND);
(119150,119154,G_EXTEND);
(119163,119170,G_EXTEND);
(119173,119179,G_EXTEND);
(119210,119213,G_EXTEND);
(119362,119364,G_EXTEND);
(121344,121398,G_EXTEND);
(121403,121452,G_EXTEND);
(121461,121461,G_EXTEND);
(121476,121476,G_EXTEND);
(121499,121503,G_EXTEND);
(121505,121519,G_EXTEND);
(122880,122886,G_EXTEND);
(122888,122904,G_EXTEND);
(122907,122913,G_EXTEND);
(122915,122916,G_EXTEND);
(122918,122922,G_EXTEND);
(125136,125142,G_EXTEND);
(125252,125258,G_EXTEND);
(917536,917631,G_EXTEND);
(917760,917999,G_EXTEND);
(127462,127487,G_REGIONAL_INDICATOR);
(2307,2307,G_SPACINGMARK);
(2363,2363,G_SPACINGMARK);
(2366,2368,G_SPACINGMARK);
(2377,2380,G_SPACINGMARK);
(2382,2383,G_SPACINGMARK);
(2434,2435,G_SPACINGMARK);
(2495,2496,G_SPACINGMARK);
(2503,2504,G_SPACINGMARK);
(2507,2508,G_SPACINGMARK);
(2563,2563,G_SPACINGMARK);
(2622,2624,G_SPACINGMARK);
(2691,2691,G_SPACINGMARK);
(2750,2752,G_SPACINGMARK);
(2761,2761,G_SPACINGMARK);
(2763,2764,G_SPACINGMARK);
(2818,2819,G_SPACINGMARK);
(2880,2880,G_SPACINGMARK);
(2887,2888,G_SPACINGMARK);
(2891,2892,G_SPACINGMARK);
(3007,3007,G_SPACINGMARK);
(3009,3010,G_SPACINGMARK);
(3014,3016,G_SPACINGMARK);
(3018,3020,G_SPACINGMARK);
(3073,3075,G_SPACINGMARK);
(3137,3140,G_SPACINGMARK);
(3202,3203,G_SPACINGMARK);
(3262,3262,G_SPACINGMARK);
(3264,3265,G_SPACINGMARK);
(3267,3268,G_SPACINGMARK);
(3271,3272,G_SPACINGMARK);
(3274,3275,G_SPACINGMARK);
(3330,3331,G_SPACINGMARK);
(3391,3392,G_SPACINGMARK);
(3398,3400,G_SPACINGMARK);
(3402,3404,G_SPACINGMARK);
(3458,3459,G_SPACINGMARK);
(3536,3537,G_SPACINGMARK);
(3544,3550,G_SPACINGMARK);
(3570,3571,G_SPACINGMARK);
(3635,3635,G_SPACINGMARK);
(3763,3763,G_SPACINGMARK);
(3902,3903,G_SPACINGMARK);
(3967,3967,G_SPACINGMARK);
(4145,4145,G_SPACINGMARK);
(4155,4156,G_SPACINGMARK);
(4182,4183,G_SPACINGMARK);
(4228,4228,G_SPACINGMARK);
(6070,6070,G_SPACINGMARK);
(6078,6085,G_SPACINGMARK);
(6087,6088,G_SPACINGMARK);
(6435,6438,G_SPACINGMARK);
(6441,6443,G_SPACINGMARK);
(6448,6449,G_SPACINGMARK);
(6451,6456,G_SPACINGMARK);
(6681,6682,G_SPACINGMARK);
(6741,6741,G_SPACINGMARK);
(6743,6743,G_SPACINGMARK);
(6765,6770,G_SPACINGMARK);
(6916,6916,G_SPACINGMARK);
(6965,6965,G_SPACINGMARK);
(6971,6971,G_SPACINGMARK);
(6973,6977,G_SPACINGMARK);
(6979,6980,G_SPACINGMARK);
(7042,7042,G_SPACINGMARK);
(7073,7073,G_SPACINGMARK);
(7078,7079,G_SPACINGMARK);
(7082,7082,G_SPACINGMARK);
(7143,7143,G_SPACINGMARK);
(7146,7148,G_SPACINGMARK);
(7150,7150,G_SPACINGMARK);
(7154,7155,G_SPACINGMARK);
(7204,7211,G_SPACINGMARK);
(7220,7221,G_SPACINGMARK);
(7393,7393,G_SPACINGMARK);
(7410,7411,G_SPACINGMARK);
(43043,43044,G_SPACINGMARK);
(43047,43047,G_SPACINGMARK);
(43136,43137,G_SPACINGMARK);
(43188,43203,G_SPACINGMARK);
(43346,43347,G_SPACINGMARK);
(43395,43395,G_SPACINGMARK);
(43444,43445,G_SPACINGMARK);
(43450,43451,G_SPACINGMARK);
(43453,43456,G_SPACINGMARK);
(43567,43568,G_SPACINGMARK);
(43571,43572,G_SPACINGMARK);
(43597,43597,G_SPACINGMARK);
(43755,43755,G_SPACINGMARK);
(43758,43759,G_SPACINGMARK);
(43765,43765,G_SPACINGMARK);
(44003,44004,G_SPACINGMARK);
(44006,44007,G_SPACINGMARK);
(44009,44010,G_SPACINGMARK);
(44012,44012,G_SPACINGMARK);
(69632,69632,G_SPACINGMARK);
(69634,69634,G_SPACINGMARK);
(69762,69762,G_SPACINGMARK);
(69808,69810,G_SPACINGMARK);
(69815,69816,G_SPACINGMARK);
(69932,69932,G_SPACINGMARK);
(70018,70018,G_SPACINGMARK);
(70067,70069,G_SPACINGMARK);
(70079,70080,G_SPACINGMARK);
(70188,70190,G_SPACINGMARK);
(70194,70195,G_SPACINGMARK);
(70197,70197,G_SPACINGMARK);
(70368,70370,G_SPACINGMARK);
(70402,70403,G_SPACINGMARK);
(70463,70463,G_SPACINGMARK);
(70465,70468,G_SPACINGMARK);
(70471,70472,G_SPACINGMARK);
(70475,70477,G_SPACINGMARK);
(70498,70499,G_SPACINGMARK);
(70709,70711,G_SPACINGMARK);
(70720,70721,G_SPACINGMARK);
(70725,70725,G_SPACINGMARK);
(70833,70834,G_SPACINGMARK);
(70841,70841,G_SPACINGMARK);
(70843,70844,G_SPACINGMARK);
(70846,70846,G_SPACINGMARK);
(70849,70849,G_SPACINGMARK);
(71088,71089,G_SPACINGMARK);
(71096,71099,G_SPACINGMARK);
(71102,71102,G_SPACINGMARK);
(71216,71218,G_SPACINGMARK);
(71227,71228,G_SPACINGMARK);
(71230,71230,G_SPACINGMARK);
(71340,71340,G_SPACINGMARK);
(71342,71343,G_SPACINGMARK);
(71350,71350,G_SPACINGMARK);
(71456,71457,G_SPACINGMARK);
(71462,71462,G_SPACINGMARK);
(72751,72751,G_SPACINGMARK);
(72766,72766,G_SPACINGMARK);
(72873,72873,G_SPACINGMARK);
(72881,72881,G_SPACINGMARK);
(72884,72884,G_SPACINGMARK);
(94033,94078,G_SPACINGMARK);
(119142,119142,G_SPACINGMARK);
(119149,119149,G_SPACINGMARK);
(4352,4447,G_L);
(43360,43388,G_L);
(4448,4519,G_V);
(55216,55238,G_V);
(4520,4607,G_T);
(55243,55291,G_T);
(44032,44032,G_LV);
(44060,44060,G_LV);
(44088,44088,G_LV);
(44116,44116,G_LV);
(44144,44144,G_LV);
(44172,44172,G_LV);
(44200,44200,G_LV);
(44228,44228,G_LV);
(44256,44256,G_LV);
(44284,44284,G_LV);
(44312,44312,G_LV);
(44340,44340,G_LV);
(44368,44368,G_LV);
(44396,44396,G_LV);
(44424,44424,G_LV);
(44452,44452,G_LV);
(44480,44480,G_LV);
(44508,44508,G_LV);
(44536,44536,G_LV);
(44564,44564,G_LV);
(44592,44592,G_LV);
(44620,44620,G_LV);
(44648,44648,G_LV);
(44676,44676,G_LV);
(44704,44704,G_LV);
(44732,44732,G_LV);
(44760,44760,G_LV);
(44788,44788,G_LV);
(44816,44816,G_LV);
(44844,44844,G_LV);
(44872,44872,G_LV);
(44900,44900,G_LV);
(44928,44928,G_LV);
(44956,44956,G_LV);
(44984,44984,G_LV);
(45012,45012,G_LV);
(45040,45040,G_LV);
(45068,45068,G_LV);
(45096,45096,G_LV);
(45124,45124,G_LV);
(45152,45152,G_LV);
(45180,45180,G_LV);
(45208,45208,G_LV);
(45236,45236,G_LV);
(45264,45264,G_LV);
(45292,45292,G_LV);
(45320,45320,G_LV);
(45348,45348,G_LV);
(45376,45376,G_LV);
(45404,45404,G_LV);
(45432,45432,G_LV);
(45460,45460,G_LV);
(45488,45488,G_LV);
(45516,45516,G_LV);
(45544,45544,G_LV);
(45572,45572,G_LV);
(45600,45600,G_LV);
(45628,45628,G_LV);
(45656,45656,G_LV);
(45684,45684,G_LV);
(45712,45712,G_LV);
(45740,45740,G_LV);
(45768,45768,G_LV);
(45796,45796,G_LV);
(45824,45824,G_LV);
(45852,45852,G_LV);
(45880,45880,G_LV);
(45908,45908,G_LV);
(45936,45936,G_LV);
(45964,45964,G_LV);
(45992,45992,G_LV);
(46020,46020,G_LV);
(46048,46048,G_LV);
(46076,46076,G_LV);
(46104,46104,G_LV);
(46132,46132,G_LV);
(46160,46160,G_LV);
(46188,46188,G_LV);
(46216,46216,G_LV);
(46244,46244,G_LV);
(46272,46272,G_LV);
(46300,46300,G_LV);
(46328,46328,G_LV);
(46356,46356,G_LV);
(46384,46384,G_LV);
(46412,46412,G_LV);
(46440,46440,G_LV);
(46468,46468,G_LV);
(46496,46496,G_LV);
(46524,46524,G_LV);
(46552,46552,G_LV);
(46580,46580,G_LV);
(46608,46608,G_LV);
(46636,46636,G_LV);
(46664,46664,G_LV);
(46692,46692,G_LV);
(46720,46720,G_LV);
(46748,46748,G_LV);
(46776,46776,G_LV);
(46804,46804,G_LV);
(46832,46832,G_LV);
(46860,46860,G_LV);
(46888,46888,G_LV);
(46916,46916,G_LV);
(46944,46944,G_LV);
(46972,46972,G_LV);
(47000,47000,G_LV);
(47028,47028,G_LV);
(47056,47056,G_LV);
(47084,47084,G_LV);
(47112,47112,G_LV);
(47140,47140,G_LV);
(47168,47168,G_LV);
(47196,47196,G_LV);
(47224,47224,G_LV);
(47252,47252,G_LV);
(47280,47280,G_LV);
(47308,47308,G_LV);
(47336,47336,G_LV);
(47364,47364,G_LV);
(47392,47392,G_LV);
(47420,47420,G_LV);
(47448,47448,G_LV);
(47476,47476,G_LV);
(47504,47504,G_LV);
(47532,47532,G_LV);
(47560,47560,G_LV);
(47588,47588,G_LV);
(47616,47616,G_LV);
(47644,47644,G_LV);
(47672,47672,G_LV);
(47700,47700,G_LV);
(47728,47728,G_LV);
(47756,47756,G_LV);
(47784,47784,G_LV);
(47812,47812,G_LV);
(47840,47840,G_LV);
(47868,47868,G_LV);
(47896,47896,G_LV);
(47924,47924,G_LV);
(47952,47952,G_LV);
(47980,47980,G_LV);
(48008,48008,G_LV);
(48036,48036,G_LV);
(48064,48064,G_LV);
(48092,48092,G_LV);
(48120,48120,G_LV);
(48148,48148,G_LV);
(48176,48176,G_LV);
(48204,48204,G_LV);
(48232,48232,G_LV);
(48260,48260,G_LV);
(48288,48288,G_LV);
(48316,48316,G_LV);
(48344,48344,G_LV);
(48372,48372,G_LV);
(48400,48400,G_LV);
(48428,48428,G_LV);
(48456,48456,G_LV);
(48484,48484,G_LV);
(48512,48512,G_LV);
(48540,48540,G_LV);
(48568,48568,G_LV);
(48596,48596,G_LV);
(48624,48624,G_LV);
(48652,48652,G_LV);
(48680,48680,G_LV);
(48708,48708,G_LV);
(48736,48736,G_LV);
(48764,48764,G_LV);
(48792,48792,G_LV);
(48820,48820,G_LV);
(48848,48848,G_LV);
(48876,48876,G_LV);
(48904,48904,G_LV);
(48932,48932,G_LV);
(48960,48960,G_LV);
(48988,48988,G_LV);
(49016,49016,G_LV);
(49044,49044,G_LV);
(49072,49072,G_LV);
(49100,49100,G_LV);
(49128,49128,G_LV);
(49156,49156,G_LV);
(49184,49184,G_LV);
(49212,49212,G_LV);
(49240,49240,G_LV);
(49268,49268,G_LV);
(49296,49296,G_LV);
(49324,49324,G_LV);
(49352,49352,G_LV);
(49380,49380,G_LV);
(49408,49408,G_LV);
(49436,49436,G_LV);
(49464,49464,G_LV);
(49492,49492,G_LV);
(49520,49520,G_LV);
(49548,49548,G_LV);
(49576,49576,G_LV);
(49604,49604,G_LV);
(49632,49632,G_LV);
(49660,49660,G_LV);
(49688,49688,G_LV);
(49716,49716,G_LV);
(49744,49744,G_LV);
(49772,49772,G_LV);
(49800,49800,G_LV);
(49828,49828,G_LV);
(49856,49856,G_LV);
(49884,49884,G_LV);
(49912,49912,G_LV);
(49940,49940,G_LV);
(49968,49968,G_LV);
(49996,49996,G_LV);
(50024,50024,G_LV);
(50052,50052,G_LV);
(50080,50080,G_LV);
(50108,50108,G_LV);
(50136,50136,G_LV);
(50164,50164,G_LV);
(50192,50192,G_LV);
(50220,50220,G_LV);
(50248,50248,G_LV);
(50276,50276,G_LV);
(50304,50304,G_LV);
(50332,50332,G_LV);
(50360,50360,G_LV);
(50388,50388,G_LV);
(50416,50416,G_LV);
(50444,50444,G_LV);
(50472,50472,G_LV);
(50500,50500,G_LV);
(50528,50528,G_LV);
(50556,50556,G_LV);
(50584,50584,G_LV);
(50612,50612,G_LV);
(50640,50640,G_LV);
(50668,50668,G_LV);
(50696,50696,G_LV);
(50724,50724,G_LV);
(50752,50752,G_LV);
(50780,50780,G_LV);
(50808,50808,G_LV);
(50836,50836,G_LV);
(50864,50864,G_LV);
(50892,50892,G_LV);
(50920,50920,G_LV);
(50948,50948,G_LV);
(50976,50976,G_LV);
(51004,51004,G_LV);
(51032,51032,G_LV);
(51060,51060,G_LV);
(51088,51088,G_LV);
(51116,51116,G_LV);
(51144,51144,G_LV);
(51172,51172,G_LV);
(51200,51200,G_LV);
(51228,51228,G_LV);
(51256,51256,G_LV);
(51284,51284,G_LV);
(51312,51312,G_LV);
(51340,51340,G_LV);
(51368,51368,G_LV);
(51396,51396,G_LV);
(51424,51424,G_LV);
(51452,51452,G_LV);
(51480,51480,G_LV);
(51508,51508,G_LV);
(51536,51536,G_LV);
(51564,51564,G_LV);
(51592,51592,G_LV);
(51620,51620,G_LV);
(51648,51648,G_LV);
(51676,51676,G_LV);
(51704,51704,G_LV);
(51732,51732,G_LV);
(51760,51760,G_LV);
(51788,51788,G_LV);
(51816,51816,G_LV);
(51844,51844,G_LV);
(51872,51872,G_LV);
(51900,51900,G_LV);
(51928,51928,G_LV);
(51956,51956,G_LV);
(51984,51984,G_LV);
(52012,52012,G_LV);
(52040,52040,G_LV);
(52068,52068,G_LV);
(52096,52096,G_LV);
(52124,52124,G_LV);
(52152,52152,G_LV);
(52180,52180,G_LV);
(52208,52208,G_LV);
(52236,52236,G_LV);
(52264,52264,G_LV);
(52292,52292,G_LV);
(52320,52320,G_LV);
(52348,52348,G_LV);
(52376,52376,G_LV);
(52404,52404,G_LV);
(52432,52432,G_LV);
(52460,52460,G_LV);
(52488,52488,G_LV);
(52516,52516,G_LV);
(52544,52544,G_LV);
(52572,52572,G_LV);
(52600,52600,G_LV);
(52628,52628,G_LV);
(52656,52656,G_LV);
(52684,52684,G_LV);
(52712,52712,G_LV);
(52740,52740,G_LV);
(52768,52768,G_LV);
(52796,52796,G_LV);
(52824,52824,G_LV);
(52852,52852,G_LV);
(52880,52880,G_LV);
(52908,52908,G_LV);
(52936,52936,G_LV);
(52964,52964,G_LV);
(52992,52992,G_LV);
(53020,53020,G_LV);
(53048,53048,G_LV);
(53076,53076,G_LV);
(53104,53104,G_LV);
(53132,53132,G_LV);
(53160,53160,G_LV);
(53188,53188,G_LV);
(53216,53216,G_LV);
(53244,53244,G_LV);
(53272,53272,G_LV);
(53300,53300,G_LV);
(53328,53328,G_LV);
(53356,53356,G_LV);
(53384,53384,G_LV);
(53412,53412,G_LV);
(53440,53440,G_LV);
(53468,53468,G_LV);
(53496,53496,G_LV);
(53524,53524,G_LV);
(53552,53552,G_LV);
(53580,53580,G_LV);
(53608,53608,G_LV);
(53636,53636,G_LV);
(53664,53664,G_LV);
(53692,53692,G_LV);
(53720,53720,G_LV);
(53748,53748,G_LV);
(53776,53776,G_LV);
(53804,53804,G_LV);
(53832,53832,G_LV);
(53860,53860,G_LV);
(53888,53888,G_LV);
(53916,53916,G_LV);
(53944,53944,G_LV);
(53972,53972,G_LV);
(54000,54000,G_LV);
(54028,54028,G_LV);
(54056,54056,G_LV);
(54084,54084,G_LV);
(54112,54112,G_LV);
(54140,54140,G_LV);
(54168,54168,G_LV);
(54196,54196,G_LV);
(54224,54224,G_LV);
(54252,54252,G_LV);
(54280,54280,G_LV);
(54308,54308,G_LV);
(54336,54336,G_LV);
(54364,54364,G_LV);
(54392,54392,G_LV);
(54420,54420,G_LV);
(54448,54448,G_LV);
(54476,54476,G_LV);
(54504,54504,G_LV);
(54532,54532,G_LV);
(54560,54560,G_LV);
(54588,54588,G_LV);
(54616,54616,G_LV);
(54644,54644,G_LV);
(54672,54672,G_LV);
(54700,54700,G_LV);
(54728,54728,G_LV);
(54756,54756,G_LV);
(54784,54784,G_LV);
(54812,54812,G_LV);
(54840,54840,G_LV);
(54868,54868,G_LV);
(54896,54896,G_LV);
(54924,54924,G_LV);
(54952,54952,G_LV);
(54980,54980,G_LV);
(55008,55008,G_LV);
(55036,55036,G_LV);
(55064,55064,G_LV);
(55092,55092,G_LV);
(55120,55120,G_LV);
(55148,55148,G_LV);
(55176,55176,G_LV);
(44033,44059,G_LVT);
(44061,44087,G_LVT);
(44089,44115,G_LVT);
(44117,44143,G_LVT);
(44145,44171,G_LVT);
(44173,44199,G_LVT);
(44201,44227,G_LVT);
(44229,44255,G_LVT);
(44257,44283,G_LVT);
(44285,44311,G_LVT);
(44313,44339,G_LVT);
(44341,44367,G_LVT);
(44369,44395,G_LVT);
(44397,44423,G_LVT);
(44425,44451,G_LVT);
(44453,44479,G_LVT);
(44481,44507,G_LVT);
(44509,44535,G_LVT);
(44537,44563,G_LVT);
(44565,44591,G_LVT);
(44593,44619,G_LVT);
(44621,44647,G_LVT);
(44649,44675,G_LVT);
(44677,44703,G_LVT);
(44705,44731,G_LVT);
(44733,44759,G_LVT);
(44761,44787,G_LVT);
(44789,44815,G_LVT);
(44817,44843,G_LVT);
(44845,44871,G_LVT);
(44873,44899,G_LVT);
(44901,44927,G_LVT);
(44929,44955,G_LVT);
(44957,44983,G_LVT);
(44985,45011,G_LVT);
(45013,45039,G_LVT);
(45041,45067,G_LVT);
(45069,45095,G_LVT);
(45097,45123,G_LVT);
(45125,45151,G_LVT);
(45153,45179,G_LVT);
(45181,45207,G_LVT);
(45209,45235,G_LVT);
(45237,45263,G_LVT);
(45265,45291,G_LVT);
(45293,45319,G_LVT);
(45321,45347,G_LVT);
(45349,45375,G_LVT);
(45377,45403,G_LVT);
(45405,45431,G_LVT);
(45433,45459,G_LVT);
(45461,45487,G_LVT);
(45489,45515,G_LVT);
(45517,45543,G_LVT);
(45545,45571,G_LVT);
(45573,45599,G_LVT);
(45601,45627,G_LVT);
(45629,45655,G_LVT);
(45657,45683,G_LVT);
(45685,45711,G_LVT);
(45713,45739,G_LVT);
(45741,45767,G_LVT);
(45769,45795,G_LVT);
(45797,45823,G_LVT);
(45825,45851,G_LVT);
(45853,45879,G_LVT);
(45881,45907,G_LVT);
(45909,45935,G_LVT);
(45937,45963,G_LVT);
(45965,45991,G_LVT);
(45993,46019,G_LVT);
(46021,46047,G_LVT);
(46049,46075,G_LVT);
(46077,46103,G_LVT);
(46105,46131,G_LVT);
(46133,46159,G_LVT);
(46161,46187,G_LVT);
(46189,46215,G_LVT);
(46217,46243,G_LVT);
(46245,46271,G_LVT);
(46273,46299,G_LVT);
(46301,46327,G_LVT);
(46329,46355,G_LVT);
(46357,46383,G_LVT);
(46385,46411,G_LVT);
(46413,46439,G_LVT);
(46441,46467,G_LVT);
(46469,46495,G_LVT);
(46497,46523,G_LVT);
(46525,46551,G_LVT);
(46553,46579,G_LVT);
(46581,46607,G_LVT);
(46609,46635,G_LVT);
(46637,46663,G_LVT);
(46665,46691,G_LVT);
(46693,46719,G_LVT);
(46721,46747,G_LVT);
(46749,46775,G_LVT);
(46777,46803,G_LVT);
(46805,46831,G_LVT);
(46833,46859,G_LVT);
(46861,46887,G_LVT);
(46889,46915,G_LVT);
(46917,46943,G_LVT);
(46945,46971,G_LVT);
(46973,46999,G_LVT);
(47001,47027,G_LVT);
(47029,47055,G_LVT);
(47057,47083,G_LVT);
(47085,47111,G_LVT);
(47113,47139,G_LVT);
(47141,47167,G_LVT);
(47169,47195,G_LVT);
(47197,47223,G_LVT);
(47225,47251,G_LVT);
(47253,47279,G_LVT);
(47281,47307,G_LVT);
(47309,47335,G_LVT);
(47337,47363,G_LVT);
(47365,47391,G_LVT);
(47393,47419,G_LVT);
(47421,47447,G_LVT);
(47449,47475,G_LVT);
(47477,47503,G_LVT);
(47505,47531,G_LVT);
(47533,47559,G_LVT);
(47561,47587,G_LVT);
(47589,47615,G_LVT);
(47617,47643,G_LVT);
(47645,47671,G_LVT);
(47673,47699,G_LVT);
(47701,47727,G_LVT);
(47729,47755,G_LVT);
(47757,47783,G_LVT);
(47785,47811,G_LVT);
(47813,47839,G_LVT);
(47841,47867,G_LVT);
(47869,47895,G_LVT);
(47897,47923,G_LVT);
(47925,47951,G_LVT);
(47953,47979,G_LVT);
(47981,48007,G_LVT);
(48009,48035,G_LVT);
(48037,48063,G_LVT);
(48065,48091,G_LVT);
(48093,48119,G_LVT);
(48121,48147,G_LVT);
(48149,48175,G_LVT);
(48177,48203,G_LVT);
(48205,48231,G_LVT);
(48233,48259,G_LVT);
(48261,48287,G_LVT);
(48289,48315,G_LVT);
(48317,48343,G_LVT);
(48345,48371,G_LVT);
(48373,48399,G_LVT);
(48401,48427,G_LVT);
(48429,48455,G_LVT);
(48457,48483,G_LVT);
(48485,48511,G_LVT);
(48513,48539,G_LVT);
(48541,48567,G_LVT);
(48569,48595,G_LVT);
(48597,48623,G_LVT);
(48625,48651,G_LVT);
(48653,48679,G_LVT);
(48681,48707,G_LVT);
(48709,48735,G_LVT);
(48737,48763,G_LVT);
(48765,48791,G_LVT);
(48793,48819,G_LVT);
(48821,48847,G_LVT);
(48849,48875,G_LVT);
(48877,48903,G_LVT);
(48905,48931,G_LVT);
(48933,48959,G_LVT);
(48961,48987,G_LVT);
(48989,49015,G_LVT);
(49017,49043,G_LVT);
(49045,49071,G_LVT);
(49073,49099,G_LVT);
(49101,49127,G_LVT);
(49129,49155,G_LVT);
(49157,49183,G_LVT);
(49185,49211,G_LVT);
(49213,49239,G_LVT);
(49241,49267,G_LVT);
(49269,49295,G_LVT);
(49297,49323,G_LVT);
(49325,49351,G_LVT);
(49353,49379,G_LVT);
(49381,49407,G_LVT);
(49409,49435,G_LVT);
(49437,49463,G_LVT);
(49465,49491,G_LVT);
(49493,49519,G_LVT);
(49521,49547,G_LVT);
(49549,49575,G_LVT);
(49577,49603,G_LVT);
(49605,49631,G_LVT);
(49633,49659,G_LVT);
(49661,49687,G_LVT);
(49689,49715,G_LVT);
(49717,49743,G_LVT);
(49745,49771,G_LVT);
(49773,49799,G_LVT);
(49801,49827,G_LVT);
(49829,49855,G_LVT);
(49857,49883,G_LVT);
(49885,49911,G_LVT);
(49913,49939,G_LVT);
(49941,49967,G_LVT);
(49969,49995,G_LVT);
(49997,50023,G_LVT);
(50025,50051,G_LVT);
(50053,50079,G_LVT);
(50081,50107,G_LVT);
(50109,50135,G_LVT);
(50137,50163,G_LVT);
(50165,50191,G_LVT);
(50193,50219,G_LVT);
(50221,50247,G_LVT);
(50249,50275,G_LVT);
(50277,50303,G_LVT);
(50305,50331,G_LVT);
(50333,50359,G_LVT);
(50361,50387,G_LVT);
(50389,50415,G_LVT);
(50417,50443,G_LVT);
(50445,50471,G_LVT);
(50473,50499,G_LVT);
(50501,50527,G_LVT);
(50529,50555,G_LVT);
(50557,50583,G_LVT);
(50585,50611,G_LVT);
(50613,50639,G_LVT);
(50641,50667,G_LVT);
(50669,50695,G_LVT);
(50697,50723,G_LVT);
(50725,50751,G_LVT);
(50753,50779,G_LVT);
(50781,50807,G_LVT);
(50809,50835,G_LVT);
(50837,50863,G_LVT);
(50865,50891,G_LVT);
(50893,50919,G_LVT);
(50921,50947,G_LVT);
(50949,50975,G_LVT);
(50977,51003,G_LVT);
(51005,51031,G_LVT);
(51033,51059,G_LVT);
(51061,51087,G_LVT);
(51089,51115,G_LVT);
(51117,51143,G_LVT);
(51145,51171,G_LVT);
(51173,51199,G_LVT);
(51201,51227,G_LVT);
(51229,51255,G_LVT);
(51257,51283,G_LVT);
(51285,51311,G_LVT);
(51313,51339,G_LVT);
(51341,51367,G_LVT);
(51369,51395,G_LVT);
(51397,51423,G_LVT);
(51425,51451,G_LVT);
(51453,51479,G_LVT);
(51481,51507,G_LVT);
(51509,51535,G_LVT);
(51537,51563,G_LVT);
(51565,51591,G_LVT);
(51593,51619,G_LVT);
(51621,51647,G_LVT);
(51649,51675,G_LVT);
(51677,51703,G_LVT);
(51705,51731,G_LVT);
(51733,51759,G_LVT);
(51761,51787,G_LVT);
(51789,51815,G_LVT);
(51817,51843,G_LVT);
(51845,51871,G_LVT);
(51873,51899,G_LVT);
(51901,51927,G_LVT);
(51929,51955,G_LVT);
(51957,51983,G_LVT);
(51985,52011,G_LVT);
(52013,52039,G_LVT);
(52041,52067,G_LVT);
(52069,52095,G_LVT);
(52097,52123,G_LVT);
(52125,52151,G_LVT);
(52153,52179,G_LVT);
(52181,52207,G_LVT);
(52209,52235,G_LVT);
(52237,52263,G_LVT);
(52265,52291,G_LVT);
(52293,52319,G_LVT);
(52321,52347,G_LVT);
(52349,52375,G_LVT);
(52377,52403,G_LVT);
(52405,52431,G_LVT);
(52433,52459,G_LVT);
(52461,52487,G_LVT);
(52489,52515,G_LVT);
(52517,52543,G_LVT);
(52545,52571,G_LVT);
(52573,52599,G_LVT);
(52601,52627,G_LVT);
(52629,52655,G_LVT);
(52657,52683,G_LVT);
(52685,52711,G_LVT);
(52713,52739,G_LVT);
(52741,52767,G_LVT);
(52769,52795,G_LVT);
(52797,52823,G_LVT);
(52825,52851,G_LVT);
(52853,52879,G_LVT);
(52881,52907,G_LVT);
(52909,52935,G_LVT);
(52937,52963,G_LVT);
(52965,52991,G_LVT);
(52993,53019,G_LVT);
(53021,53047,G_LVT);
(53049,53075,G_LVT);
(53077,53103,G_LVT);
(53105,53131,G_LVT);
(53133,53159,G_LVT);
(53161,53187,G_LVT);
(53189,53215,G_LVT);
(53217,53243,G_LVT);
(53245,53271,G_LVT);
(53273,53299,G_LVT);
(53301,53327,G_LVT);
(53329,53355,G_LVT);
(53357,53383,G_LVT);
(53385,53411,G_LVT);
(53413,53439,G_LVT);
(53441,53467,G_LVT);
(53469,53495,G_LVT);
(53497,53523,G_LVT);
(53525,53551,G_LVT);
(53553,53579,G_LVT);
(53581,53607,G_LVT);
(53609,53635,G_LVT);
(53637,53663,G_LVT);
(53665,53691,G_LVT);
(53693,53719,G_LVT);
(53721,53747,G_LVT);
(53749,53775,G_LVT);
(53777,53803,G_LVT);
(53805,53831,G_LVT);
(53833,53859,G_LVT);
(53861,53887,G_LVT);
(53889,53915,G_LVT);
(53917,53943,G_LVT);
(53945,53971,G_LVT);
(53973,53999,G_LVT);
(54001,54027,G_LVT);
(54029,54055,G_LVT);
(54057,54083,G_LVT);
(54085,54111,G_LVT);
(54113,54139,G_LVT);
(54141,54167,G_LVT);
(54169,54195,G_LVT);
(54197,54223,G_LVT);
(54225,54251,G_LVT);
(54253,54279,G_LVT);
(54281,54307,G_LVT);
(54309,54335,G_LVT);
(54337,54363,G_LVT);
(54365,54391,G_LVT);
(54393,54419,G_LVT);
(54421,54447,G_LVT);
(54449,54475,G_LVT);
(54477,54503,G_LVT);
(54505,54531,G_LVT);
(54533,54559,G_LVT);
(54561,54587,G_LVT);
(54589,54615,G_LVT);
(54617,54643,G_LVT);
(54645,54671,G_LVT);
(54673,54699,G_LVT);
(54701,54727,G_LVT);
(54729,54755,G_LVT);
(54757,54783,G_LVT);
(54785,54811,G_LVT);
(54813,54839,G_LVT);
(54841,54867,G_LVT);
(54869,54895,G_LVT);
(54897,54923,G_LVT);
(54925,54951,G_LVT);
(54953,54979,G_LVT);
(54981,55007,G_LVT);
(55009,55035,G_LVT);
(55037,55063,G_LVT);
(55065,55091,G_LVT);
(55093,55119,G_LVT);
(55121,55147,G_LVT);
(55149,55175,G_LVT);
(55177,55203,G_LVT);
(9757,9757,G_E_BASE);
(9977,9977,G_E_BASE);
(9994,9997,G_E_BASE);
(127877,127877,G_E_BASE);
(127939,127940,G_E_BASE);
(127946,127947,G_E_BASE);
(128066,128067,G_E_BASE);
(128070,128080,G_E_BASE);
(128110,128110,G_E_BASE);
(128112,128120,G_E_BASE);
(128124,128124,G_E_BASE);
(128129,128131,G_E_BASE);
(128133,128135,G_E_BASE);
(128170,128170,G_E_BASE);
(128373,128373,G_E_BASE);
(128378,128378,G_E_BASE);
(128400,128400,G_E_BASE);
(128405,128406,G_E_BASE);
(128581,128583,G_E_BASE);
(128587,128591,G_E_BASE);
(128675,128675,G_E_BASE);
(128692,128694,G_E_BASE);
(128704,128704,G_E_BASE);
(129304,129310,G_E_BASE);
(129318,129318,G_E_BASE);
(129328,129328,G_E_BASE);
(129331,129337,G_E_BASE);
(129340,129342,G_E_BASE);
(127995,127999,G_E_MODIFIER);
(8205,8205,G_ZWJ);
(10084,10084,G_GLUE_AFTER_ZWJ);
(128139,128139,G_GLUE_AFTER_ZWJ);
(128488,128488,G_GLUE_AFTER_ZWJ);
(128102,128105,G_E_BASE_GAZ)
].
