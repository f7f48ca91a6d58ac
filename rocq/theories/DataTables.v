(** GENERATED by tools/gen_tables.py from src/u5e/props/*_data.hpp.  Model side:
    the arrays [data] / [ranges] of src/u5e/props/*.cpp, row by row in file order. *)
From Coq Require Import List ZArith.
Import ListNotations.
Open Scope Z_scope.

(** include/u5e/props/grapheme_cluster_break.hpp:20-39; enumerator X is written G_X *)
Inductive gcb : Set :=
| G_OTHER | G_PREPEND | G_CR | G_LF | G_CONTROL | G_EXTEND | G_REGIONAL_INDICATOR | G_SPACINGMARK | G_L | G_V | G_T | G_LV | G_LVT | G_E_BASE | G_E_MODIFIER | G_ZWJ | G_GLUE_AFTER_ZWJ | G_E_BASE_GAZ.

(** src/u5e/props/canonical_combining_class_data.hpp, 814 rows *)
Definition canonical_combining_class_data : list (list Z) := [
[768;230];
[769;230];
[770;230];
[771;230];
[772;230];
[773;230];
[774;230];
[775;230];
[776;230];
[777;230];
[778;230];
[779;230];
[780;230];
[781;230];
[782;230];
[783;230];
[784;230];
[785;230];
[786;230];
[787;230];
[788;230];
[789;232];
[790;220];
[791;220];
[792;220];
[793;220];
[794;232];
[795;216];
[796;220];
[797;220];
[798;220];
[799;220];
[800;220];
[801;202];
[802;202];
[803;220];
[804;220];
[805;220];
[806;220];
[807;202];
[808;202];
[809;220];
[810;220];
[811;220];
[812;220];
[813;220];
[814;220];
[815;220];
[816;220];
[817;220];
[818;220];
[819;220];
[820;1];
[821;1];
[822;1];
[823;1];
[824;1];
[825;220];
[826;220];
[827;220];
[828;220];
[829;230];
[830;230];
[831;230];
[832;230];
[833;230];
[834;230];
[835;230];
[836;230];
[837;240];
[838;230];
[839;220];
[840;220];
[841;220];
[842;230];
[843;230];
[844;230];
[845;220];
[846;220];
[848;230];
[849;230];
[850;230];
[851;220];
[852;220];
[853;220];
[854;220];
[855;230];
[856;232];
[857;220];
[858;220];
[859;230];
[860;233];
[861;234];
[862;234];
[863;233];
[864;234];
[865;234];
[866;233];
[867;230];
[868;230];
[869;230];
[870;230];
[871;230];
[872;230];
[873;230];
[874;230];
[875;230];
[876;230];
[877;230];
[878;230];
[879;230];
[1155;230];
[1156;230];
[1157;230];
[1158;230];
[1159;230];
[1425;220];
[1426;230];
[1427;230];
[1428;230];
[1429;230];
[1430;220];
[1431;230];
[1432;230];
[1433;230];
[1434;222];
[1435;220];
[1436;230];
[1437;230];
[1438;230];
[1439;230];
[1440;230];
[1441;230];
[1442;220];
[1443;220];
[1444;220];
[1445;220];
[1446;220];
[1447;220];
[1448;230];
[1449;230];
[1450;220];
[1451;230];
[1452;230];
[1453;222];
[1454;228];
[1455;230];
[1456;10];
[1457;11];
[1458;12];
[1459;13];
[1460;14];
[1461;15];
[1462;16];
[1463;17];
[1464;18];
[1465;19];
[1466;19];
[1467;20];
[1468;21];
[1469;22];
[1471;23];
[1473;24];
[1474;25];
[1476;230];
[1477;220];
[1479;18];
[1552;230];
[1553;230];
[1554;230];
[1555;230];
[1556;230];
[1557;230];
[1558;230];
[1559;230];
[1560;30];
[1561;31];
[1562;32];
[1611;27];
[1612;28];
[1613;29];
[1614;30];
[1615;31];
[1616;32];
[1617;33];
[1618;34];
[1619;230];
[1620;230];
[1621;220];
[1622;220];
[1623;230];
[1624;230];
[1625;230];
[1626;230];
[1627;230];
[1628;220];
[1629;230];
[1630;230];
[1631;220];
[1648;35];
[1750;230];
[1751;230];
[1752;230];
[1753;230];
[1754;230];
[1755;230];
[1756;230];
[1759;230];
[1760;230];
[1761;230];
[1762;230];
[1763;220];
[1764;230];
[1767;230];
[1768;230];
[1770;220];
[1771;230];
[1772;230];
[1773;220];
[1809;36];
[1840;230];
[1841;220];
[1842;230];
[1843;230];
[1844;220];
[1845;230];
[1846;230];
[1847;220];
[1848;220];
[1849;220];
[1850;230];
[1851;220];
[1852;220];
[1853;230];
[1854;220];
[1855;230];
[1856;230];
[1857;230];
[1858;220];
[1859;230];
[1860;220];
[1861;230];
[1862;220];
[1863;230];
[1864;220];
[1865;230];
[1866;230];
[2027;230];
[2028;230];
[2029;230];
[2030;230];
[2031;230];
[2032;230];
[2033;230];
[2034;220];
[2035;230];
[2070;230];
[2071;230];
[2072;230];
[2073;230];
[2075;230];
[2076;230];
[2077;230];
[2078;230];
[2079;230];
[2080;230];
[2081;230];
[2082;230];
[2083;230];
[2085;230];
[2086;230];
[2087;230];
[2089;230];
[2090;230];
[2091;230];
[2092;230];
[2093;230];
[2137;220];
[2138;220];
[2139;220];
[2260;230];
[2261;230];
[2262;230];
[2263;230];
[2264;230];
[2265;230];
[2266;230];
[2267;230];
[2268;230];
[2269;230];
[2270;230];
[2271;230];
[2272;230];
[2273;230];
[2275;220];
[2276;230];
[2277;230];
[2278;220];
[2279;230];
[2280;230];
[2281;220];
[2282;230];
[2283;230];
[2284;230];
[2285;220];
[2286;220];
[2287;220];
[2288;27];
[2289;28];
[2290;29];
[2291;230];
[2292;230];
[2293;230];
[2294;220];
[2295;230];
[2296;230];
[2297;220];
[2298;220];
[2299;230];
[2300;230];
[2301;230];
[2302;230];
[2303;230];
[2364;7];
[2381;9];
[2385;230];
[2386;220];
[2387;230];
[2388;230];
[2492;7];
[2509;9];
[2620;7];
[2637;9];
[2748;7];
[2765;9];
[2876;7];
[2893;9];
[3021;9];
[3149;9];
[3157;84];
[3158;91];
[3260;7];
[3277;9];
[3405;9];
[3530;9];
[3640;103];
[3641;103];
[3642;9];
[3656;107];
[3657;107];
[3658;107];
[3659;107];
[3768;118];
[3769;118];
[3784;122];
[3785;122];
[3786;122];
[3787;122];
[3864;220];
[3865;220];
[3893;220];
[3895;220];
[3897;216];
[3953;129];
[3954;130];
[3956;132];
[3962;130];
[3963;130];
[3964;130];
[3965;130];
[3968;130];
[3970;230];
[3971;230];
[3972;9];
[3974;230];
[3975;230];
[4038;220];
[4151;7];
[4153;9];
[4154;9];
[4237;220];
[4957;230];
[4958;230];
[4959;230];
[5908;9];
[5940;9];
[6098;9];
[6109;230];
[6313;228];
[6457;222];
[6458;230];
[6459;220];
[6679;230];
[6680;220];
[6752;9];
[6773;230];
[6774;230];
[6775;230];
[6776;230];
[6777;230];
[6778;230];
[6779;230];
[6780;230];
[6783;220];
[6832;230];
[6833;230];
[6834;230];
[6835;230];
[6836;230];
[6837;220];
[6838;220];
[6839;220];
[6840;220];
[6841;220];
[6842;220];
[6843;230];
[6844;230];
[6845;220];
[6964;7];
[6980;9];
[7019;230];
[7020;220];
[7021;230];
[7022;230];
[7023;230];
[7024;230];
[7025;230];
[7026;230];
[7027;230];
[7082;9];
[7083;9];
[7142;7];
[7154;9];
[7155;9];
[7223;7];
[7376;230];
[7377;230];
[7378;230];
[7380;1];
[7381;220];
[7382;220];
[7383;220];
[7384;220];
[7385;220];
[7386;230];
[7387;230];
[7388;220];
[7389;220];
[7390;220];
[7391;220];
[7392;230];
[7394;1];
[7395;1];
[7396;1];
[7397;1];
[7398;1];
[7399;1];
[7400;1];
[7405;220];
[7412;230];
[7416;230];
[7417;230];
[7616;230];
[7617;230];
[7618;220];
[7619;230];
[7620;230];
[7621;230];
[7622;230];
[7623;230];
[7624;230];
[7625;230];
[7626;220];
[7627;230];
[7628;230];
[7629;234];
[7630;214];
[7631;220];
[7632;202];
[7633;230];
[7634;230];
[7635;230];
[7636;230];
[7637;230];
[7638;230];
[7639;230];
[7640;230];
[7641;230];
[7642;230];
[7643;230];
[7644;230];
[7645;230];
[7646;230];
[7647;230];
[7648;230];
[7649;230];
[7650;230];
[7651;230];
[7652;230];
[7653;230];
[7654;230];
[7655;230];
[7656;230];
[7657;230];
[7658;230];
[7659;230];
[7660;230];
[7661;230];
[7662;230];
[7663;230];
[7664;230];
[7665;230];
[7666;230];
[7667;230];
[7668;230];
[7669;230];
[7675;230];
[7676;233];
[7677;220];
[7678;230];
[7679;220];
[8400;230];
[8401;230];
[8402;1];
[8403;1];
[8404;230];
[8405;230];
[8406;230];
[8407;230];
[8408;1];
[8409;1];
[8410;1];
[8411;230];
[8412;230];
[8417;230];
[8421;1];
[8422;1];
[8423;230];
[8424;220];
[8425;230];
[8426;1];
[8427;1];
[8428;220];
[8429;220];
[8430;220];
[8431;220];
[8432;230];
[11503;230];
[11504;230];
[11505;230];
[11647;9];
[11744;230];
[11745;230];
[11746;230];
[11747;230];
[11748;230];
[11749;230];
[11750;230];
[11751;230];
[11752;230];
[11753;230];
[11754;230];
[11755;230];
[11756;230];
[11757;230];
[11758;230];
[11759;230];
[11760;230];
[11761;230];
[11762;230];
[11763;230];
[11764;230];
[11765;230];
[11766;230];
[11767;230];
[11768;230];
[11769;230];
[11770;230];
[11771;230];
[11772;230];
[11773;230];
[11774;230];
[11775;230];
[12330;218];
[12331;228];
[12332;232];
[12333;222];
[12334;224];
[12335;224];
[12441;8];
[12442;8];
[42607;230];
[42612;230];
[42613;230];
[42614;230];
[42615;230];
[42616;230];
[42617;230];
[42618;230];
[42619;230];
[42620;230];
[42621;230];
[42654;230];
[42655;230];
[42736;230];
[42737;230];
[43014;9];
[43204;9];
[43232;230];
[43233;230];
[43234;230];
[43235;230];
[43236;230];
[43237;230];
[43238;230];
[43239;230];
[43240;230];
[43241;230];
[43242;230];
[43243;230];
[43244;230];
[43245;230];
[43246;230];
[43247;230];
[43248;230];
[43249;230];
[43307;220];
[43308;220];
[43309;220];
[43347;9];
[43443;7];
[43456;9];
[43696;230];
[43698;230];
[43699;230];
[43700;220];
[43703;230];
[43704;230];
[43710;230];
[43711;230];
[43713;230];
[43766;9];
[44013;9];
[64286;26];
[65056;230];
[65057;230];
[65058;230];
[65059;230];
[65060;230];
[65061;230];
[65062;230];
[65063;220];
[65064;220];
[65065;220];
[65066;220];
[65067;220];
[65068;220];
[65069;220];
[65070;230];
[65071;230];
[66045;220];
[66272;220];
[66422;230];
[66423;230];
[66424;230];
[66425;230];
[66426;230];
[68109;220];
[68111;230];
[68152;230];
[68153;1];
[68154;220];
[68159;9];
[68325;230];
[68326;220];
[69702;9];
[69759;9];
[69817;9];
[69818;7];
[69888;230];
[69889;230];
[69890;230];
[69939;9];
[69940;9];
[70003;7];
[70080;9];
[70090;7];
[70197;9];
[70198;7];
[70377;7];
[70378;9];
[70460;7];
[70477;9];
[70502;230];
[70503;230];
[70504;230];
[70505;230];
[70506;230];
[70507;230];
[70508;230];
[70512;230];
[70513;230];
[70514;230];
[70515;230];
[70516;230];
[70722;9];
[70726;7];
[70850;9];
[70851;7];
[71103;9];
[71104;7];
[71231;9];
[71350;9];
[71351;7];
[71467;9];
[72767;9];
[92912;1];
[92913;1];
[92914;1];
[92915;1];
[92916;1];
[92976;230];
[92977;230];
[92978;230];
[92979;230];
[92980;230];
[92981;230];
[92982;230];
[113822;1];
[119141;216];
[119142;216];
[119143;1];
[119144;1];
[119145;1];
[119149;226];
[119150;216];
[119151;216];
[119152;216];
[119153;216];
[119154;216];
[119163;220];
[119164;220];
[119165;220];
[119166;220];
[119167;220];
[119168;220];
[119169;220];
[119170;220];
[119173;230];
[119174;230];
[119175;230];
[119176;230];
[119177;230];
[119178;220];
[119179;220];
[119210;230];
[119211;230];
[119212;230];
[119213;230];
[119362;230];
[119363;230];
[119364;230];
[122880;230];
[122881;230];
[122882;230];
[122883;230];
[122884;230];
[122885;230];
[122886;230];
[122888;230];
[122889;230];
[122890;230];
[122891;230];
[122892;230];
[122893;230];
[122894;230];
[122895;230];
[122896;230];
[122897;230];
[122898;230];
[122899;230];
[122900;230];
[122901;230];
[122902;230];
[122903;230];
[122904;230];
[122907;230];
[122908;230];
[122909;230];
[122910;230];
[122911;230];
[122912;230];
[122913;230];
[122915;230];
[122916;230];
[122918;230];
[122919;230];
[122920;230];
[122921;230];
[122922;230];
[125136;220];
[125137;220];
[125138;220];
[125139;220];
[125140;220];
[125141;220];
[125142;220];
[125252;230];
[125253;230];
[125254;230];
[125255;230];
[125256;230];
[125257;230];
[125258;7]
].

(** src/u5e/props/canonical_decomposition_mapping_data.hpp, 2060 rows *)
Definition canonical_decomposition_mapping_data : list (list Z) := [
[192;65;768;0];
[193;65;769;0];
[194;65;770;0];
[195;65;771;0];
[196;65;776;0];
[197;65;778;0];
[199;67;807;0];
[200;69;768;0];
[201;69;769;0];
[202;69;770;0];
[203;69;776;0];
[204;73;768;0];
[205;73;769;0];
[206;73;770;0];
[207;73;776;0];
[209;78;771;0];
[210;79;768;0];
[211;79;769;0];
[212;79;770;0];
[213;79;771;0];
[214;79;776;0];
[217;85;768;0];
[218;85;769;0];
[219;85;770;0];
[220;85;776;0];
[221;89;769;0];
[224;97;768;0];
[225;97;769;0];
[226;97;770;0];
[227;97;771;0];
[228;97;776;0];
[229;97;778;0];
[231;99;807;0];
[232;101;768;0];
[233;101;769;0];
[234;101;770;0];
[235;101;776;0];
[236;105;768;0];
[237;105;769;0];
[238;105;770;0];
[239;105;776;0];
[241;110;771;0];
[242;111;768;0];
[243;111;769;0];
[244;111;770;0];
[245;111;771;0];
[246;111;776;0];
[249;117;768;0];
[250;117;769;0];
[251;117;770;0];
[252;117;776;0];
[253;121;769;0];
[255;121;776;0];
[256;65;772;0];
[257;97;772;0];
[258;65;774;0];
[259;97;774;0];
[260;65;808;0];
[261;97;808;0];
[262;67;769;0];
[263;99;769;0];
[264;67;770;0];
[265;99;770;0];
[266;67;775;0];
[267;99;775;0];
[268;67;780;0];
[269;99;780;0];
[270;68;780;0];
[271;100;780;0];
[274;69;772;0];
[275;101;772;0];
[276;69;774;0];
[277;101;774;0];
[278;69;775;0];
[279;101;775;0];
[280;69;808;0];
[281;101;808;0];
[282;69;780;0];
[283;101;780;0];
[284;71;770;0];
[285;103;770;0];
[286;71;774;0];
[287;103;774;0];
[288;71;775;0];
[289;103;775;0];
[290;71;807;0];
[291;103;807;0];
[292;72;770;0];
[293;104;770;0];
[296;73;771;0];
[297;105;771;0];
[298;73;772;0];
[299;105;772;0];
[300;73;774;0];
[301;105;774;0];
[302;73;808;0];
[303;105;808;0];
[304;73;775;0];
[308;74;770;0];
[309;106;770;0];
[310;75;807;0];
[311;107;807;0];
[313;76;769;0];
[314;108;769;0];
[315;76;807;0];
[316;108;807;0];
[317;76;780;0];
[318;108;780;0];
[323;78;769;0];
[324;110;769;0];
[325;78;807;0];
[326;110;807;0];
[327;78;780;0];
[328;110;780;0];
[332;79;772;0];
[333;111;772;0];
[334;79;774;0];
[335;111;774;0];
[336;79;779;0];
[337;111;779;0];
[340;82;769;0];
[341;114;769;0];
[342;82;807;0];
[343;114;807;0];
[344;82;780;0];
[345;114;780;0];
[346;83;769;0];
[347;115;769;0];
[348;83;770;0];
[349;115;770;0];
[350;83;807;0];
[351;115;807;0];
[352;83;780;0];
[353;115;780;0];
[354;84;807;0];
[355;116;807;0];
[356;84;780;0];
[357;116;780;0];
[360;85;771;0];
[361;117;771;0];
[362;85;772;0];
[363;117;772;0];
[364;85;774;0];
[365;117;774;0];
[366;85;778;0];
[367;117;778;0];
[368;85;779;0];
[369;117;779;0];
[370;85;808;0];
[371;117;808;0];
[372;87;770;0];
[373;119;770;0];
[374;89;770;0];
[375;121;770;0];
[376;89;776;0];
[377;90;769;0];
[378;122;769;0];
[379;90;775;0];
[380;122;775;0];
[381;90;780;0];
[382;122;780;0];
[416;79;795;0];
[417;111;795;0];
[431;85;795;0];
[432;117;795;0];
[461;65;780;0];
[462;97;780;0];
[463;73;780;0];
[464;105;780;0];
[465;79;780;0];
[466;111;780;0];
[467;85;780;0];
[468;117;780;0];
[469;85;776;772;0];
[470;117;776;772;0];
[471;85;776;769;0];
[472;117;776;769;0];
[473;85;776;780;0];
[474;117;776;780;0];
[475;85;776;768;0];
[476;117;776;768;0];
[478;65;776;772;0];
[479;97;776;772;0];
[480;65;775;772;0];
[481;97;775;772;0];
[482;198;772;0];
[483;230;772;0];
[486;71;780;0];
[487;103;780;0];
[488;75;780;0];
[489;107;780;0];
[490;79;808;0];
[491;111;808;0];
[492;79;808;772;0];
[493;111;808;772;0];
[494;439;780;0];
[495;658;780;0];
[496;106;780;0];
[500;71;769;0];
[501;103;769;0];
[504;78;768;0];
[505;110;768;0];
[506;65;778;769;0];
[507;97;778;769;0];
[508;198;769;0];
[509;230;769;0];
[510;216;769;0];
[511;248;769;0];
[512;65;783;0];
[513;97;783;0];
[514;65;785;0];
[515;97;785;0];
[516;69;783;0];
[517;101;783;0];
[518;69;785;0];
[519;101;785;0];
[520;73;783;0];
[521;105;783;0];
[522;73;785;0];
[523;105;785;0];
[524;79;783;0];
[525;111;783;0];
[526;79;785;0];
[527;111;785;0];
[528;82;783;0];
[529;114;783;0];
[530;82;785;0];
[531;114;785;0];
[532;85;783;0];
[533;117;783;0];
[534;85;785;0];
[535;117;785;0];
[536;83;806;0];
[537;115;806;0];
[538;84;806;0];
[539;116;806;0];
[542;72;780;0];
[543;104;780;0];
[550;65;775;0];
[551;97;775;0];
[552;69;807;0];
[553;101;807;0];
[554;79;776;772;0];
[555;111;776;772;0];
[556;79;771;772;0];
[557;111;771;772;0];
[558;79;775;0];
[559;111;775;0];
[560;79;775;772;0];
[561;111;775;772;0];
[562;89;772;0];
[563;121;772;0];
[832;768;0];
[833;769;0];
[835;787;0];
[836;776;769;0];
[884;697;0];
[894;59;0];
[901;168;769;0];
[902;913;769;0];
[903;183;0];
[904;917;769;0];
[905;919;769;0];
[906;921;769;0];
[908;927;769;0];
[910;933;769;0];
[911;937;769;0];
[912;953;776;769;0];
[938;921;776;0];
[939;933;776;0];
[940;945;769;0];
[941;949;769;0];
[942;951;769;0];
[943;953;769;0];
[944;965;776;769;0];
[970;953;776;0];
[971;965;776;0];
[972;959;769;0];
[973;965;769;0];
[974;969;769;0];
[979;978;769;0];
[980;978;776;0];
[1024;1045;768;0];
[1025;1045;776;0];
[1027;1043;769;0];
[1031;1030;776;0];
[1036;1050;769;0];
[1037;1048;768;0];
[1038;1059;774;0];
[1049;1048;774;0];
[1081;1080;774;0];
[1104;1077;768;0];
[1105;1077;776;0];
[1107;1075;769;0];
[1111;1110;776;0];
[1116;1082;769;0];
[1117;1080;768;0];
[1118;1091;774;0];
[1142;1140;783;0];
[1143;1141;783;0];
[1217;1046;774;0];
[1218;1078;774;0];
[1232;1040;774;0];
[1233;1072;774;0];
[1234;1040;776;0];
[1235;1072;776;0];
[1238;1045;774;0];
[1239;1077;774;0];
[1242;1240;776;0];
[1243;1241;776;0];
[1244;1046;776;0];
[1245;1078;776;0];
[1246;1047;776;0];
[1247;1079;776;0];
[1250;1048;772;0];
[1251;1080;772;0];
[1252;1048;776;0];
[1253;1080;776;0];
[1254;1054;776;0];
[1255;1086;776;0];
[1258;1256;776;0];
[1259;1257;776;0];
[1260;1069;776;0];
[1261;1101;776;0];
[1262;1059;772;0];
[1263;1091;772;0];
[1264;1059;776;0];
[1265;1091;776;0];
[1266;1059;779;0];
[1267;1091;779;0];
[1268;1063;776;0];
[1269;1095;776;0];
[1272;1067;776;0];
[1273;1099;776;0];
[1570;1575;1619;0];
[1571;1575;1620;0];
[1572;1608;1620;0];
[1573;1575;1621;0];
[1574;1610;1620;0];
[1728;1749;1620;0];
[1730;1729;1620;0];
[1747;1746;1620;0];
[2345;2344;2364;0];
[2353;2352;2364;0];
[2356;2355;2364;0];
[2392;2325;2364;0];
[2393;2326;2364;0];
[2394;2327;2364;0];
[2395;2332;2364;0];
[2396;2337;2364;0];
[2397;2338;2364;0];
[2398;2347;2364;0];
[2399;2351;2364;0];
[2507;2503;2494;0];
[2508;2503;2519;0];
[2524;2465;2492;0];
[2525;2466;2492;0];
[2527;2479;2492;0];
[2611;2610;2620;0];
[2614;2616;2620;0];
[2649;2582;2620;0];
[2650;2583;2620;0];
[2651;2588;2620;0];
[2654;2603;2620;0];
[2888;2887;2902;0];
[2891;2887;2878;0];
[2892;2887;2903;0];
[2908;2849;2876;0];
[2909;2850;2876;0];
[2964;2962;3031;0];
[3018;3014;3006;0];
[3019;3015;3006;0];
[3020;3014;3031;0];
[3144;3142;3158;0];
[3264;3263;3285;0];
[3271;3270;3285;0];
[3272;3270;3286;0];
[3274;3270;3266;0];
[3275;3270;3266;3285;0];
[3402;3398;3390;0];
[3403;3399;3390;0];
[3404;3398;3415;0];
[3546;3545;3530;0];
[3548;3545;3535;0];
[3549;3545;3535;3530;0];
[3550;3545;3551;0];
[3907;3906;4023;0];
[3917;3916;4023;0];
[3922;3921;4023;0];
[3927;3926;4023;0];
[3932;3931;4023;0];
[3945;3904;4021;0];
[3955;3953;3954;0];
[3957;3953;3956;0];
[3958;4018;3968;0];
[3960;4019;3968;0];
[3969;3953;3968;0];
[3987;3986;4023;0];
[3997;3996;4023;0];
[4002;4001;4023;0];
[4007;4006;4023;0];
[4012;4011;4023;0];
[4025;3984;4021;0];
[4134;4133;4142;0];
[6918;6917;6965;0];
[6920;6919;6965;0];
[6922;6921;6965;0];
[6924;6923;6965;0];
[6926;6925;6965;0];
[6930;6929;6965;0];
[6971;6970;6965;0];
[6973;6972;6965;0];
[6976;6974;6965;0];
[6977;6975;6965;0];
[6979;6978;6965;0];
[7680;65;805;0];
[7681;97;805;0];
[7682;66;775;0];
[7683;98;775;0];
[7684;66;803;0];
[7685;98;803;0];
[7686;66;817;0];
[7687;98;817;0];
[7688;67;807;769;0];
[7689;99;807;769;0];
[7690;68;775;0];
[7691;100;775;0];
[7692;68;803;0];
[7693;100;803;0];
[7694;68;817;0];
[7695;100;817;0];
[7696;68;807;0];
[7697;100;807;0];
[7698;68;813;0];
[7699;100;813;0];
[7700;69;772;768;0];
[7701;101;772;768;0];
[7702;69;772;769;0];
[7703;101;772;769;0];
[7704;69;813;0];
[7705;101;813;0];
[7706;69;816;0];
[7707;101;816;0];
[7708;69;807;774;0];
[7709;101;807;774;0];
[7710;70;775;0];
[7711;102;775;0];
[7712;71;772;0];
[7713;103;772;0];
[7714;72;775;0];
[7715;104;775;0];
[7716;72;803;0];
[7717;104;803;0];
[7718;72;776;0];
[7719;104;776;0];
[7720;72;807;0];
[7721;104;807;0];
[7722;72;814;0];
[7723;104;814;0];
[7724;73;816;0];
[7725;105;816;0];
[7726;73;776;769;0];
[7727;105;776;769;0];
[7728;75;769;0];
[7729;107;769;0];
[7730;75;803;0];
[7731;107;803;0];
[7732;75;817;0];
[7733;107;817;0];
[7734;76;803;0];
[7735;108;803;0];
[7736;76;803;772;0];
[7737;108;803;772;0];
[7738;76;817;0];
[7739;108;817;0];
[7740;76;813;0];
[7741;108;813;0];
[7742;77;769;0];
[7743;109;769;0];
[7744;77;775;0];
[7745;109;775;0];
[7746;77;803;0];
[7747;109;803;0];
[7748;78;775;0];
[7749;110;775;0];
[7750;78;803;0];
[7751;110;803;0];
[7752;78;817;0];
[7753;110;817;0];
[7754;78;813;0];
[7755;110;813;0];
[7756;79;771;769;0];
[7757;111;771;769;0];
[7758;79;771;776;0];
[7759;111;771;776;0];
[7760;79;772;768;0];
[7761;111;772;768;0];
[7762;79;772;769;0];
[7763;111;772;769;0];
[7764;80;769;0];
[7765;112;769;0];
[7766;80;775;0];
[7767;112;775;0];
[7768;82;775;0];
[7769;114;775;0];
[7770;82;803;0];
[7771;114;803;0];
[7772;82;803;772;0];
[7773;114;803;772;0];
[7774;82;817;0];
[7775;114;817;0];
[7776;83;775;0];
[7777;115;775;0];
[7778;83;803;0];
[7779;115;803;0];
[7780;83;769;775;0];
[7781;115;769;775;0];
[7782;83;780;775;0];
[7783;115;780;775;0];
[7784;83;803;775;0];
[7785;115;803;775;0];
[7786;84;775;0];
[7787;116;775;0];
[7788;84;803;0];
[7789;116;803;0];
[7790;84;817;0];
[7791;116;817;0];
[7792;84;813;0];
[7793;116;813;0];
[7794;85;804;0];
[7795;117;804;0];
[7796;85;816;0];
[7797;117;816;0];
[7798;85;813;0];
[7799;117;813;0];
[7800;85;771;769;0];
[7801;117;771;769;0];
[7802;85;772;776;0];
[7803;117;772;776;0];
[7804;86;771;0];
[7805;118;771;0];
[7806;86;803;0];
[7807;118;803;0];
[7808;87;768;0];
[7809;119;768;0];
[7810;87;769;0];
[7811;119;769;0];
[7812;87;776;0];
[7813;119;776;0];
[7814;87;775;0];
[7815;119;775;0];
[7816;87;803;0];
[7817;119;803;0];
[7818;88;775;0];
[7819;120;775;0];
[7820;88;776;0];
[7821;120;776;0];
[7822;89;775;0];
[7823;121;775;0];
[7824;90;770;0];
[7825;122;770;0];
[7826;90;803;0];
[7827;122;803;0];
[7828;90;817;0];
[7829;122;817;0];
[7830;104;817;0];
[7831;116;776;0];
[7832;119;778;0];
[7833;121;778;0];
[7835;383;775;0];
[7840;65;803;0];
[7841;97;803;0];
[7842;65;777;0];
[7843;97;777;0];
[7844;65;770;769;0];
[7845;97;770;769;0];
[7846;65;770;768;0];
[7847;97;770;768;0];
[7848;65;770;777;0];
[7849;97;770;777;0];
[7850;65;770;771;0];
[7851;97;770;771;0];
[7852;65;803;770;0];
[7853;97;803;770;0];
[7854;65;774;769;0];
[7855;97;774;769;0];
[7856;65;774;768;0];
[7857;97;774;768;0];
[7858;65;774;777;0];
[7859;97;774;777;0];
[7860;65;774;771;0];
[7861;97;774;771;0];
[7862;65;803;774;0];
[7863;97;803;774;0];
[7864;69;803;0];
[7865;101;803;0];
[7866;69;777;0];
[7867;101;777;0];
[7868;69;771;0];
[7869;101;771;0];
[7870;69;770;769;0];
[7871;101;770;769;0];
[7872;69;770;768;0];
[7873;101;770;768;0];
[7874;69;770;777;0];
[7875;101;770;777;0];
[7876;69;770;771;0];
[7877;101;770;771;0];
[7878;69;803;770;0];
[7879;101;803;770;0];
[7880;73;777;0];
[7881;105;777;0];
[7882;73;803;0];
[7883;105;803;0];
[7884;79;803;0];
[7885;111;803;0];
[7886;79;777;0];
[7887;111;777;0];
[7888;79;770;769;0];
[7889;111;770;769;0];
[7890;79;770;768;0];
[7891;111;770;768;0];
[7892;79;770;777;0];
[7893;111;770;777;0];
[7894;79;770;771;0];
[7895;111;770;771;0];
[7896;79;803;770;0];
[7897;111;803;770;0];
[7898;79;795;769;0];
[7899;111;795;769;0];
[7900;79;795;768;0];
[7901;111;795;768;0];
[7902;79;795;777;0];
[7903;111;795;777;0];
[7904;79;795;771;0];
[7905;111;795;771;0];
[7906;79;795;803;0];
[7907;111;795;803;0];
[7908;85;803;0];
[7909;117;803;0];
[7910;85;777;0];
[7911;117;777;0];
[7912;85;795;769;0];
[7913;117;795;769;0];
[7914;85;795;768;0];
[7915;117;795;768;0];
[7916;85;795;777;0];
[7917;117;795;777;0];
[7918;85;795;771;0];
[7919;117;795;771;0];
[7920;85;795;803;0];
[7921;117;795;803;0];
[7922;89;768;0];
[7923;121;768;0];
[7924;89;803;0];
[7925;121;803;0];
[7926;89;777;0];
[7927;121;777;0];
[7928;89;771;0];
[7929;121;771;0];
[7936;945;787;0];
[7937;945;788;0];
[7938;945;787;768;0];
[7939;945;788;768;0];
[7940;945;787;769;0];
[7941;945;788;769;0];
[7942;945;787;834;0];
[7943;945;788;834;0];
[7944;913;787;0];
[7945;913;788;0];
[7946;913;787;768;0];
[7947;913;788;768;0];
[7948;913;787;769;0];
[7949;913;788;769;0];
[7950;913;787;834;0];
[7951;913;788;834;0];
[7952;949;787;0];
[7953;949;788;0];
[7954;949;787;768;0];
[7955;949;788;768;0];
[7956;949;787;769;0];
[7957;949;788;769;0];
[7960;917;787;0];
[7961;917;788;0];
[7962;917;787;768;0];
[7963;917;788;768;0];
[7964;917;787;769;0];
[7965;917;788;769;0];
[7968;951;787;0];
[7969;951;788;0];
[7970;951;787;768;0];
[7971;951;788;768;0];
[7972;951;787;769;0];
[7973;951;788;769;0];
[7974;951;787;834;0];
[7975;951;788;834;0];
[7976;919;787;0];
[7977;919;788;0];
[7978;919;787;768;0];
[7979;919;788;768;0];
[7980;919;787;769;0];
[7981;919;788;769;0];
[7982;919;787;834;0];
[7983;919;788;834;0];
[7984;953;787;0];
[7985;953;788;0];
[7986;953;787;768;0];
[7987;953;788;768;0];
[7988;953;787;769;0];
[7989;953;788;769;0];
[7990;953;787;834;0];
[7991;953;788;834;0];
[7992;921;787;0];
[7993;921;788;0];
[7994;921;787;768;0];
[7995;921;788;768;0];
[7996;921;787;769;0];
[7997;921;788;769;0];
[7998;921;787;834;0];
[7999;921;788;834;0];
[8000;959;787;0];
[8001;959;788;0];
[8002;959;787;768;0];
[8003;959;788;768;0];
[8004;959;787;769;0];
[8005;959;788;769;0];
[8008;927;787;0];
[8009;927;788;0];
[8010;927;787;768;0];
[8011;927;788;768;0];
[8012;927;787;769;0];
[8013;927;788;769;0];
[8016;965;787;0];
[8017;965;788;0];
[8018;965;787;768;0];
[8019;965;788;768;0];
[8020;965;787;769;0];
[8021;965;788;769;0];
[8022;965;787;834;0];
[8023;965;788;834;0];
[8025;933;788;0];
[8027;933;788;768;0];
[8029;933;788;769;0];
[8031;933;788;834;0];
[8032;969;787;0];
[8033;969;788;0];
[8034;969;787;768;0];
[8035;969;788;768;0];
[8036;969;787;769;0];
[8037;969;788;769;0];
[8038;969;787;834;0];
[8039;969;788;834;0];
[8040;937;787;0];
[8041;937;788;0];
[8042;937;787;768;0];
[8043;937;788;768;0];
[8044;937;787;769;0];
[8045;937;788;769;0];
[8046;937;787;834;0];
[8047;937;788;834;0];
[8048;945;768;0];
[8049;945;769;0];
[8050;949;768;0];
[8051;949;769;0];
[8052;951;768;0];
[8053;951;769;0];
[8054;953;768;0];
[8055;953;769;0];
[8056;959;768;0];
[8057;959;769;0];
[8058;965;768;0];
[8059;965;769;0];
[8060;969;768;0];
[8061;969;769;0];
[8064;945;787;837;0];
[8065;945;788;837;0];
[8066;945;787;768;837;0];
[8067;945;788;768;837;0];
[8068;945;787;769;837;0];
[8069;945;788;769;837;0];
[8070;945;787;834;837;0];
[8071;945;788;834;837;0];
[8072;913;787;837;0];
[8073;913;788;837;0];
[8074;913;787;768;837;0];
[8075;913;788;768;837;0];
[8076;913;787;769;837;0];
[8077;913;788;769;837;0];
[8078;913;787;834;837;0];
[8079;913;788;834;837;0];
[8080;951;787;837;0];
[8081;951;788;837;0];
[8082;951;787;768;837;0];
[8083;951;788;768;837;0];
[8084;951;787;769;837;0];
[8085;951;788;769;837;0];
[8086;951;787;834;837;0];
[8087;951;788;834;837;0];
[8088;919;787;837;0];
[8089;919;788;837;0];
[8090;919;787;768;837;0];
[8091;919;788;768;837;0];
[8092;919;787;769;837;0];
[8093;919;788;769;837;0];
[8094;919;787;834;837;0];
[8095;919;788;834;837;0];
[8096;969;787;837;0];
[8097;969;788;837;0];
[8098;969;787;768;837;0];
[8099;969;788;768;837;0];
[8100;969;787;769;837;0];
[8101;969;788;769;837;0];
[8102;969;787;834;837;0];
[8103;969;788;834;837;0];
[8104;937;787;837;0];
[8105;937;788;837;0];
[8106;937;787;768;837;0];
[8107;937;788;768;837;0];
[8108;937;787;769;837;0];
[8109;937;788;769;837;0];
[8110;937;787;834;837;0];
[8111;937;788;834;837;0];
[8112;945;774;0];
[8113;945;772;0];
[8114;945;768;837;0];
[8115;945;837;0];
[8116;945;769;837;0];
[8118;945;834;0];
[8119;945;834;837;0];
[8120;913;774;0];
[8121;913;772;0];
[8122;913;768;0];
[8123;913;769;0];
[8124;913;837;0];
[8126;953;0];
[8129;168;834;0];
[8130;951;768;837;0];
[8131;951;837;0];
[8132;951;769;837;0];
[8134;951;834;0];
[8135;951;834;837;0];
[8136;917;768;0];
[8137;917;769;0];
[8138;919;768;0];
[8139;919;769;0];
[8140;919;837;0];
[8141;8127;768;0];
[8142;8127;769;0];
[8143;8127;834;0];
[8144;953;774;0];
[8145;953;772;0];
[8146;953;776;768;0];
[8147;953;776;769;0];
[8150;953;834;0];
[8151;953;776;834;0];
[8152;921;774;0];
[8153;921;772;0];
[8154;921;768;0];
[8155;921;769;0];
[8157;8190;768;0];
[8158;8190;769;0];
[8159;8190;834;0];
[8160;965;774;0];
[8161;965;772;0];
[8162;965;776;768;0];
[8163;965;776;769;0];
[8164;961;787;0];
[8165;961;788;0];
[8166;965;834;0];
[8167;965;776;834;0];
[8168;933;774;0];
[8169;933;772;0];
[8170;933;768;0];
[8171;933;769;0];
[8172;929;788;0];
[8173;168;768;0];
[8174;168;769;0];
[8175;96;0];
[8178;969;768;837;0];
[8179;969;837;0];
[8180;969;769;837;0];
[8182;969;834;0];
[8183;969;834;837;0];
[8184;927;768;0];
[8185;927;769;0];
[8186;937;768;0];
[8187;937;769;0];
[8188;937;837;0];
[8189;180;0];
[8192;8194;0];
[8193;8195;0];
[8486;937;0];
[8490;75;0];
[8491;65;778;0];
[8602;8592;824;0];
[8603;8594;824;0];
[8622;8596;824;0];
[8653;8656;824;0];
[8654;8660;824;0];
[8655;8658;824;0];
[8708;8707;824;0];
[8713;8712;824;0];
[8716;8715;824;0];
[8740;8739;824;0];
[8742;8741;824;0];
[8769;8764;824;0];
[8772;8771;824;0];
[8775;8773;824;0];
[8777;8776;824;0];
[8800;61;824;0];
[8802;8801;824;0];
[8813;8781;824;0];
[8814;60;824;0];
[8815;62;824;0];
[8816;8804;824;0];
[8817;8805;824;0];
[8820;8818;824;0];
[8821;8819;824;0];
[8824;8822;824;0];
[8825;8823;824;0];
[8832;8826;824;0];
[8833;8827;824;0];
[8836;8834;824;0];
[8837;8835;824;0];
[8840;8838;824;0];
[8841;8839;824;0];
[8876;8866;824;0];
[8877;8872;824;0];
[8878;8873;824;0];
[8879;8875;824;0];
[8928;8828;824;0];
[8929;8829;824;0];
[8930;8849;824;0];
[8931;8850;824;0];
[8938;8882;824;0];
[8939;8883;824;0];
[8940;8884;824;0];
[8941;8885;824;0];
[9001;12296;0];
[9002;12297;0];
[10972;10973;824;0];
[12364;12363;12441;0];
[12366;12365;12441;0];
[12368;12367;12441;0];
[12370;12369;12441;0];
[12372;12371;12441;0];
[12374;12373;12441;0];
[12376;12375;12441;0];
[12378;12377;12441;0];
[12380;12379;12441;0];
[12382;12381;12441;0];
[12384;12383;12441;0];
[12386;12385;12441;0];
[12389;12388;12441;0];
[12391;12390;12441;0];
[12393;12392;12441;0];
[12400;12399;12441;0];
[12401;12399;12442;0];
[12403;12402;12441;0];
[12404;12402;12442;0];
[12406;12405;12441;0];
[12407;12405;12442;0];
[12409;12408;12441;0];
[12410;12408;12442;0];
[12412;12411;12441;0];
[12413;12411;12442;0];
[12436;12358;12441;0];
[12446;12445;12441;0];
[12460;12459;12441;0];
[12462;12461;12441;0];
[12464;12463;12441;0];
[12466;12465;12441;0];
[12468;12467;12441;0];
[12470;12469;12441;0];
[12472;12471;12441;0];
[12474;12473;12441;0];
[12476;12475;12441;0];
[12478;12477;12441;0];
[12480;12479;12441;0];
[12482;12481;12441;0];
[12485;12484;12441;0];
[12487;12486;12441;0];
[12489;12488;12441;0];
[12496;12495;12441;0];
[12497;12495;12442;0];
[12499;12498;12441;0];
[12500;12498;12442;0];
[12502;12501;12441;0];
[12503;12501;12442;0];
[12505;12504;12441;0];
[12506;12504;12442;0];
[12508;12507;12441;0];
[12509;12507;12442;0];
[12532;12454;12441;0];
[12535;12527;12441;0];
[12536;12528;12441;0];
[12537;12529;12441;0];
[12538;12530;12441;0];
[12542;12541;12441;0];
[63744;35912;0];
[63745;26356;0];
[63746;36554;0];
[63747;36040;0];
[63748;28369;0];
[63749;20018;0];
[63750;21477;0];
[63751;40860;0];
[63752;40860;0];
[63753;22865;0];
[63754;37329;0];
[63755;21895;0];
[63756;22856;0];
[63757;25078;0];
[63758;30313;0];
[63759;32645;0];
[63760;34367;0];
[63761;34746;0];
[63762;35064;0];
[63763;37007;0];
[63764;27138;0];
[63765;27931;0];
[63766;28889;0];
[63767;29662;0];
[63768;33853;0];
[63769;37226;0];
[63770;39409;0];
[63771;20098;0];
[63772;21365;0];
[63773;27396;0];
[63774;29211;0];
[63775;34349;0];
[63776;40478;0];
[63777;23888;0];
[63778;28651;0];
[63779;34253;0];
[63780;35172;0];
[63781;25289;0];
[63782;33240;0];
[63783;34847;0];
[63784;24266;0];
[63785;26391;0];
[63786;28010;0];
[63787;29436;0];
[63788;37070;0];
[63789;20358;0];
[63790;20919;0];
[63791;21214;0];
[63792;25796;0];
[63793;27347;0];
[63794;29200;0];
[63795;30439;0];
[63796;32769;0];
[63797;34310;0];
[63798;34396;0];
[63799;36335;0];
[63800;38706;0];
[63801;39791;0];
[63802;40442;0];
[63803;30860;0];
[63804;31103;0];
[63805;32160;0];
[63806;33737;0];
[63807;37636;0];
[63808;40575;0];
[63809;35542;0];
[63810;22751;0];
[63811;24324;0];
[63812;31840;0];
[63813;32894;0];
[63814;29282;0];
[63815;30922;0];
[63816;36034;0];
[63817;38647;0];
[63818;22744;0];
[63819;23650;0];
[63820;27155;0];
[63821;28122;0];
[63822;28431;0];
[63823;32047;0];
[63824;32311;0];
[63825;38475;0];
[63826;21202;0];
[63827;32907;0];
[63828;20956;0];
[63829;20940;0];
[63830;31260;0];
[63831;32190;0];
[63832;33777;0];
[63833;38517;0];
[63834;35712;0];
[63835;25295;0];
[63836;27138;0];
[63837;35582;0];
[63838;20025;0];
[63839;23527;0];
[63840;24594;0];
[63841;29575;0];
[63842;30064;0];
[63843;21271;0];
[63844;30971;0];
[63845;20415;0];
[63846;24489;0];
[63847;19981;0];
[63848;27852;0];
[63849;25976;0];
[63850;32034;0];
[63851;21443;0];
[63852;22622;0];
[63853;30465;0];
[63854;33865;0];
[63855;35498;0];
[63856;27578;0];
[63857;36784;0];
[63858;27784;0];
[63859;25342;0];
[63860;33509;0];
[63861;25504;0];
[63862;30053;0];
[63863;20142;0];
[63864;20841;0];
[63865;20937;0];
[63866;26753;0];
[63867;31975;0];
[63868;33391;0];
[63869;35538;0];
[63870;37327;0];
[63871;21237;0];
[63872;21570;0];
[63873;22899;0];
[63874;24300;0];
[63875;26053;0];
[63876;28670;0];
[63877;31018;0];
[63878;38317;0];
[63879;39530;0];
[63880;40599;0];
[63881;40654;0];
[63882;21147;0];
[63883;26310;0];
[63884;27511;0];
[63885;36706;0];
[63886;24180;0];
[63887;24976;0];
[63888;25088;0];
[63889;25754;0];
[63890;28451;0];
[63891;29001;0];
[63892;29833;0];
[63893;31178;0];
[63894;32244;0];
[63895;32879;0];
[63896;36646;0];
[63897;34030;0];
[63898;36899;0];
[63899;37706;0];
[63900;21015;0];
[63901;21155;0];
[63902;21693;0];
[63903;28872;0];
[63904;35010;0];
[63905;35498;0];
[63906;24265;0];
[63907;24565;0];
[63908;25467;0];
[63909;27566;0];
[63910;31806;0];
[63911;29557;0];
[63912;20196;0];
[63913;22265;0];
[63914;23527;0];
[63915;23994;0];
[63916;24604;0];
[63917;29618;0];
[63918;29801;0];
[63919;32666;0];
[63920;32838;0];
[63921;37428;0];
[63922;38646;0];
[63923;38728;0];
[63924;38936;0];
[63925;20363;0];
[63926;31150;0];
[63927;37300;0];
[63928;38584;0];
[63929;24801;0];
[63930;20102;0];
[63931;20698;0];
[63932;23534;0];
[63933;23615;0];
[63934;26009;0];
[63935;27138;0];
[63936;29134;0];
[63937;30274;0];
[63938;34044;0];
[63939;36988;0];
[63940;40845;0];
[63941;26248;0];
[63942;38446;0];
[63943;21129;0];
[63944;26491;0];
[63945;26611;0];
[63946;27969;0];
[63947;28316;0];
[63948;29705;0];
[63949;30041;0];
[63950;30827;0];
[63951;32016;0];
[63952;39006;0];
[63953;20845;0];
[63954;25134;0];
[63955;38520;0];
[63956;20523;0];
[63957;23833;0];
[63958;28138;0];
[63959;36650;0];
[63960;24459;0];
[63961;24900;0];
[63962;26647;0];
[63963;29575;0];
[63964;38534;0];
[63965;21033;0];
[63966;21519;0];
[63967;23653;0];
[63968;26131;0];
[63969;26446;0];
[63970;26792;0];
[63971;27877;0];
[63972;29702;0];
[63973;30178;0];
[63974;32633;0];
[63975;35023;0];
[63976;35041;0];
[63977;37324;0];
[63978;38626;0];
[63979;21311;0];
[63980;28346;0];
[63981;21533;0];
[63982;29136;0];
[63983;29848;0];
[63984;34298;0];
[63985;38563;0];
[63986;40023;0];
[63987;40607;0];
[63988;26519;0];
[63989;28107;0];
[63990;33256;0];
[63991;31435;0];
[63992;31520;0];
[63993;31890;0];
[63994;29376;0];
[63995;28825;0];
[63996;35672;0];
[63997;20160;0];
[63998;33590;0];
[63999;21050;0];
[64000;20999;0];
[64001;24230;0];
[64002;25299;0];
[64003;31958;0];
[64004;23429;0];
[64005;27934;0];
[64006;26292;0];
[64007;36667;0];
[64008;34892;0];
[64009;38477;0];
[64010;35211;0];
[64011;24275;0];
[64012;20800;0];
[64013;21952;0];
[64016;22618;0];
[64018;26228;0];
[64021;20958;0];
[64022;29482;0];
[64023;30410;0];
[64024;31036;0];
[64025;31070;0];
[64026;31077;0];
[64027;31119;0];
[64028;38742;0];
[64029;31934;0];
[64030;32701;0];
[64032;34322;0];
[64034;35576;0];
[64037;36920;0];
[64038;37117;0];
[64042;39151;0];
[64043;39164;0];
[64044;39208;0];
[64045;40372;0];
[64046;37086;0];
[64047;38583;0];
[64048;20398;0];
[64049;20711;0];
[64050;20813;0];
[64051;21193;0];
[64052;21220;0];
[64053;21329;0];
[64054;21917;0];
[64055;22022;0];
[64056;22120;0];
[64057;22592;0];
[64058;22696;0];
[64059;23652;0];
[64060;23662;0];
[64061;24724;0];
[64062;24936;0];
[64063;24974;0];
[64064;25074;0];
[64065;25935;0];
[64066;26082;0];
[64067;26257;0];
[64068;26757;0];
[64069;28023;0];
[64070;28186;0];
[64071;28450;0];
[64072;29038;0];
[64073;29227;0];
[64074;29730;0];
[64075;30865;0];
[64076;31038;0];
[64077;31049;0];
[64078;31048;0];
[64079;31056;0];
[64080;31062;0];
[64081;31069;0];
[64082;31117;0];
[64083;31118;0];
[64084;31296;0];
[64085;31361;0];
[64086;31680;0];
[64087;32244;0];
[64088;32265;0];
[64089;32321;0];
[64090;32626;0];
[64091;32773;0];
[64092;33261;0];
[64093;33401;0];
[64094;33401;0];
[64095;33879;0];
[64096;35088;0];
[64097;35222;0];
[64098;35585;0];
[64099;35641;0];
[64100;36051;0];
[64101;36104;0];
[64102;36790;0];
[64103;36920;0];
[64104;38627;0];
[64105;38911;0];
[64106;38971;0];
[64107;24693;0];
[64108;148206;0];
[64109;33304;0];
[64112;20006;0];
[64113;20917;0];
[64114;20840;0];
[64115;20352;0];
[64116;20805;0];
[64117;20864;0];
[64118;21191;0];
[64119;21242;0];
[64120;21917;0];
[64121;21845;0];
[64122;21913;0];
[64123;21986;0];
[64124;22618;0];
[64125;22707;0];
[64126;22852;0];
[64127;22868;0];
[64128;23138;0];
[64129;23336;0];
[64130;24274;0];
[64131;24281;0];
[64132;24425;0];
[64133;24493;0];
[64134;24792;0];
[64135;24910;0];
[64136;24840;0];
[64137;24974;0];
[64138;24928;0];
[64139;25074;0];
[64140;25140;0];
[64141;25540;0];
[64142;25628;0];
[64143;25682;0];
[64144;25942;0];
[64145;26228;0];
[64146;26391;0];
[64147;26395;0];
[64148;26454;0];
[64149;27513;0];
[64150;27578;0];
[64151;27969;0];
[64152;28379;0];
[64153;28363;0];
[64154;28450;0];
[64155;28702;0];
[64156;29038;0];
[64157;30631;0];
[64158;29237;0];
[64159;29359;0];
[64160;29482;0];
[64161;29809;0];
[64162;29958;0];
[64163;30011;0];
[64164;30237;0];
[64165;30239;0];
[64166;30410;0];
[64167;30427;0];
[64168;30452;0];
[64169;30538;0];
[64170;30528;0];
[64171;30924;0];
[64172;31409;0];
[64173;31680;0];
[64174;31867;0];
[64175;32091;0];
[64176;32244;0];
[64177;32574;0];
[64178;32773;0];
[64179;33618;0];
[64180;33775;0];
[64181;34681;0];
[64182;35137;0];
[64183;35206;0];
[64184;35222;0];
[64185;35519;0];
[64186;35576;0];
[64187;35531;0];
[64188;35585;0];
[64189;35582;0];
[64190;35565;0];
[64191;35641;0];
[64192;35722;0];
[64193;36104;0];
[64194;36664;0];
[64195;36978;0];
[64196;37273;0];
[64197;37494;0];
[64198;38524;0];
[64199;38627;0];
[64200;38742;0];
[64201;38875;0];
[64202;38911;0];
[64203;38923;0];
[64204;38971;0];
[64205;39698;0];
[64206;40860;0];
[64207;141386;0];
[64208;141380;0];
[64209;144341;0];
[64210;15261;0];
[64211;16408;0];
[64212;16441;0];
[64213;152137;0];
[64214;154832;0];
[64215;163539;0];
[64216;40771;0];
[64217;40846;0];
[64285;1497;1460;0];
[64287;1522;1463;0];
[64298;1513;1473;0];
[64299;1513;1474;0];
[64300;1513;1468;1473;0];
[64301;1513;1468;1474;0];
[64302;1488;1463;0];
[64303;1488;1464;0];
[64304;1488;1468;0];
[64305;1489;1468;0];
[64306;1490;1468;0];
[64307;1491;1468;0];
[64308;1492;1468;0];
[64309;1493;1468;0];
[64310;1494;1468;0];
[64312;1496;1468;0];
[64313;1497;1468;0];
[64314;1498;1468;0];
[64315;1499;1468;0];
[64316;1500;1468;0];
[64318;1502;1468;0];
[64320;1504;1468;0];
[64321;1505;1468;0];
[64323;1507;1468;0];
[64324;1508;1468;0];
[64326;1510;1468;0];
[64327;1511;1468;0];
[64328;1512;1468;0];
[64329;1513;1468;0];
[64330;1514;1468;0];
[64331;1493;1465;0];
[64332;1489;1471;0];
[64333;1499;1471;0];
[64334;1508;1471;0];
[69786;69785;69818;0];
[69788;69787;69818;0];
[69803;69797;69818;0];
[69934;69937;69927;0];
[69935;69938;69927;0];
[70475;70471;70462;0];
[70476;70471;70487;0];
[70843;70841;70842;0];
[70844;70841;70832;0];
[70846;70841;70845;0];
[71098;71096;71087;0];
[71099;71097;71087;0];
[119134;119127;119141;0];
[119135;119128;119141;0];
[119136;119128;119141;119150;0];
[119137;119128;119141;119151;0];
[119138;119128;119141;119152;0];
[119139;119128;119141;119153;0];
[119140;119128;119141;119154;0];
[119227;119225;119141;0];
[119228;119226;119141;0];
[119229;119225;119141;119150;0];
[119230;119226;119141;119150;0];
[119231;119225;119141;119151;0];
[119232;119226;119141;119151;0];
[194560;20029;0];
[194561;20024;0];
[194562;20033;0];
[194563;131362;0];
[194564;20320;0];
[194565;20398;0];
[194566;20411;0];
[194567;20482;0];
[194568;20602;0];
[194569;20633;0];
[194570;20711;0];
[194571;20687;0];
[194572;13470;0];
[194573;132666;0];
[194574;20813;0];
[194575;20820;0];
[194576;20836;0];
[194577;20855;0];
[194578;132380;0];
[194579;13497;0];
[194580;20839;0];
[194581;20877;0];
[194582;132427;0];
[194583;20887;0];
[194584;20900;0];
[194585;20172;0];
[194586;20908;0];
[194587;20917;0];
[194588;168415;0];
[194589;20981;0];
[194590;20995;0];
[194591;13535;0];
[194592;21051;0];
[194593;21062;0];
[194594;21106;0];
[194595;21111;0];
[194596;13589;0];
[194597;21191;0];
[194598;21193;0];
[194599;21220;0];
[194600;21242;0];
[194601;21253;0];
[194602;21254;0];
[194603;21271;0];
[194604;21321;0];
[194605;21329;0];
[194606;21338;0];
[194607;21363;0];
[194608;21373;0];
[194609;21375;0];
[194610;21375;0];
[194611;21375;0];
[194612;133676;0];
[194613;28784;0];
[194614;21450;0];
[194615;21471;0];
[194616;133987;0];
[194617;21483;0];
[194618;21489;0];
[194619;21510;0];
[194620;21662;0];
[194621;21560;0];
[194622;21576;0];
[194623;21608;0];
[194624;21666;0];
[194625;21750;0];
[194626;21776;0];
[194627;21843;0];
[194628;21859;0];
[194629;21892;0];
[194630;21892;0];
[194631;21913;0];
[194632;21931;0];
[194633;21939;0];
[194634;21954;0];
[194635;22294;0];
[194636;22022;0];
[194637;22295;0];
[194638;22097;0];
[194639;22132;0];
[194640;20999;0];
[194641;22766;0];
[194642;22478;0];
[194643;22516;0];
[194644;22541;0];
[194645;22411;0];
[194646;22578;0];
[194647;22577;0];
[194648;22700;0];
[194649;136420;0];
[194650;22770;0];
[194651;22775;0];
[194652;22790;0];
[194653;22810;0];
[194654;22818;0];
[194655;22882;0];
[194656;136872;0];
[194657;136938;0];
[194658;23020;0];
[194659;23067;0];
[194660;23079;0];
[194661;23000;0];
[194662;23142;0];
[194663;14062;0];
[194664;14076;0];
[194665;23304;0];
[194666;23358;0];
[194667;23358;0];
[194668;137672;0];
[194669;23491;0];
[194670;23512;0];
[194671;23527;0];
[194672;23539;0];
[194673;138008;0];
[194674;23551;0];
[194675;23558;0];
[194676;24403;0];
[194677;23586;0];
[194678;14209;0];
[194679;23648;0];
[194680;23662;0];
[194681;23744;0];
[194682;23693;0];
[194683;138724;0];
[194684;23875;0];
[194685;138726;0];
[194686;23918;0];
[194687;23915;0];
[194688;23932;0];
[194689;24033;0];
[194690;24034;0];
[194691;14383;0];
[194692;24061;0];
[194693;24104;0];
[194694;24125;0];
[194695;24169;0];
[194696;14434;0];
[194697;139651;0];
[194698;14460;0];
[194699;24240;0];
[194700;24243;0];
[194701;24246;0];
[194702;24266;0];
[194703;172946;0];
[194704;24318;0];
[194705;140081;0];
[194706;140081;0];
[194707;33281;0];
[194708;24354;0];
[194709;24354;0];
[194710;14535;0];
[194711;144056;0];
[194712;156122;0];
[194713;24418;0];
[194714;24427;0];
[194715;14563;0];
[194716;24474;0];
[194717;24525;0];
[194718;24535;0];
[194719;24569;0];
[194720;24705;0];
[194721;14650;0];
[194722;14620;0];
[194723;24724;0];
[194724;141012;0];
[194725;24775;0];
[194726;24904;0];
[194727;24908;0];
[194728;24910;0];
[194729;24908;0];
[194730;24954;0];
[194731;24974;0];
[194732;25010;0];
[194733;24996;0];
[194734;25007;0];
[194735;25054;0];
[194736;25074;0];
[194737;25078;0];
[194738;25104;0];
[194739;25115;0];
[194740;25181;0];
[194741;25265;0];
[194742;25300;0];
[194743;25424;0];
[194744;142092;0];
[194745;25405;0];
[194746;25340;0];
[194747;25448;0];
[194748;25475;0];
[194749;25572;0];
[194750;142321;0];
[194751;25634;0];
[194752;25541;0];
[194753;25513;0];
[194754;14894;0];
[194755;25705;0];
[194756;25726;0];
[194757;25757;0];
[194758;25719;0];
[194759;14956;0];
[194760;25935;0];
[194761;25964;0];
[194762;143370;0];
[194763;26083;0];
[194764;26360;0];
[194765;26185;0];
[194766;15129;0];
[194767;26257;0];
[194768;15112;0];
[194769;15076;0];
[194770;20882;0];
[194771;20885;0];
[194772;26368;0];
[194773;26268;0];
[194774;32941;0];
[194775;17369;0];
[194776;26391;0];
[194777;26395;0];
[194778;26401;0];
[194779;26462;0];
[194780;26451;0];
[194781;144323;0];
[194782;15177;0];
[194783;26618;0];
[194784;26501;0];
[194785;26706;0];
[194786;26757;0];
[194787;144493;0];
[194788;26766;0];
[194789;26655;0];
[194790;26900;0];
[194791;15261;0];
[194792;26946;0];
[194793;27043;0];
[194794;27114;0];
[194795;27304;0];
[194796;145059;0];
[194797;27355;0];
[194798;15384;0];
[194799;27425;0];
[194800;145575;0];
[194801;27476;0];
[194802;15438;0];
[194803;27506;0];
[194804;27551;0];
[194805;27578;0];
[194806;27579;0];
[194807;146061;0];
[194808;138507;0];
[194809;146170;0];
[194810;27726;0];
[194811;146620;0];
[194812;27839;0];
[194813;27853;0];
[194814;27751;0];
[194815;27926;0];
[194816;27966;0];
[194817;28023;0];
[194818;27969;0];
[194819;28009;0];
[194820;28024;0];
[194821;28037;0];
[194822;146718;0];
[194823;27956;0];
[194824;28207;0];
[194825;28270;0];
[194826;15667;0];
[194827;28363;0];
[194828;28359;0];
[194829;147153;0];
[194830;28153;0];
[194831;28526;0];
[194832;147294;0];
[194833;147342;0];
[194834;28614;0];
[194835;28729;0];
[194836;28702;0];
[194837;28699;0];
[194838;15766;0];
[194839;28746;0];
[194840;28797;0];
[194841;28791;0];
[194842;28845;0];
[194843;132389;0];
[194844;28997;0];
[194845;148067;0];
[194846;29084;0];
[194847;148395;0];
[194848;29224;0];
[194849;29237;0];
[194850;29264;0];
[194851;149000;0];
[194852;29312;0];
[194853;29333;0];
[194854;149301;0];
[194855;149524;0];
[194856;29562;0];
[194857;29579;0];
[194858;16044;0];
[194859;29605;0];
[194860;16056;0];
[194861;16056;0];
[194862;29767;0];
[194863;29788;0];
[194864;29809;0];
[194865;29829;0];
[194866;29898;0];
[194867;16155;0];
[194868;29988;0];
[194869;150582;0];
[194870;30014;0];
[194871;150674;0];
[194872;30064;0];
[194873;139679;0];
[194874;30224;0];
[194875;151457;0];
[194876;151480;0];
[194877;151620;0];
[194878;16380;0];
[194879;16392;0];
[194880;30452;0];
[194881;151795;0];
[194882;151794;0];
[194883;151833;0];
[194884;151859;0];
[194885;30494;0];
[194886;30495;0];
[194887;30495;0];
[194888;30538;0];
[194889;16441;0];
[194890;30603;0];
[194891;16454;0];
[194892;16534;0];
[194893;152605;0];
[194894;30798;0];
[194895;30860;0];
[194896;30924;0];
[194897;16611;0];
[194898;153126;0];
[194899;31062;0];
[194900;153242;0];
[194901;153285;0];
[194902;31119;0];
[194903;31211;0];
[194904;16687;0];
[194905;31296;0];
[194906;31306;0];
[194907;31311;0];
[194908;153980;0];
[194909;154279;0];
[194910;154279;0];
[194911;31470;0];
[194912;16898;0];
[194913;154539;0];
[194914;31686;0];
[194915;31689;0];
[194916;16935;0];
[194917;154752;0];
[194918;31954;0];
[194919;17056;0];
[194920;31976;0];
[194921;31971;0];
[194922;32000;0];
[194923;155526;0];
[194924;32099;0];
[194925;17153;0];
[194926;32199;0];
[194927;32258;0];
[194928;32325;0];
[194929;17204;0];
[194930;156200;0];
[194931;156231;0];
[194932;17241;0];
[194933;156377;0];
[194934;32634;0];
[194935;156478;0];
[194936;32661;0];
[194937;32762;0];
[194938;32773;0];
[194939;156890;0];
[194940;156963;0];
[194941;32864;0];
[194942;157096;0];
[194943;32880;0];
[194944;144223;0];
[194945;17365;0];
[194946;32946;0];
[194947;33027;0];
[194948;17419;0];
[194949;33086;0];
[194950;23221;0];
[194951;157607;0];
[194952;157621;0];
[194953;144275;0];
[194954;144284;0];
[194955;33281;0];
[194956;33284;0];
[194957;36766;0];
[194958;17515;0];
[194959;33425;0];
[194960;33419;0];
[194961;33437;0];
[194962;21171;0];
[194963;33457;0];
[194964;33459;0];
[194965;33469;0];
[194966;33510;0];
[194967;158524;0];
[194968;33509;0];
[194969;33565;0];
[194970;33635;0];
[194971;33709;0];
[194972;33571;0];
[194973;33725;0];
[194974;33767;0];
[194975;33879;0];
[194976;33619;0];
[194977;33738;0];
[194978;33740;0];
[194979;33756;0];
[194980;158774;0];
[194981;159083;0];
[194982;158933;0];
[194983;17707;0];
[194984;34033;0];
[194985;34035;0];
[194986;34070;0];
[194987;160714;0];
[194988;34148;0];
[194989;159532;0];
[194990;17757;0];
[194991;17761;0];
[194992;159665;0];
[194993;159954;0];
[194994;17771;0];
[194995;34384;0];
[194996;34396;0];
[194997;34407;0];
[194998;34409;0];
[194999;34473;0];
[195000;34440;0];
[195001;34574;0];
[195002;34530;0];
[195003;34681;0];
[195004;34600;0];
[195005;34667;0];
[195006;34694;0];
[195007;17879;0];
[195008;34785;0];
[195009;34817;0];
[195010;17913;0];
[195011;34912;0];
[195012;34915;0];
[195013;161383;0];
[195014;35031;0];
[195015;35038;0];
[195016;17973;0];
[195017;35066;0];
[195018;13499;0];
[195019;161966;0];
[195020;162150;0];
[195021;18110;0];
[195022;18119;0];
[195023;35488;0];
[195024;35565;0];
[195025;35722;0];
[195026;35925;0];
[195027;162984;0];
[195028;36011;0];
[195029;36033;0];
[195030;36123;0];
[195031;36215;0];
[195032;163631;0];
[195033;133124;0];
[195034;36299;0];
[195035;36284;0];
[195036;36336;0];
[195037;133342;0];
[195038;36564;0];
[195039;36664;0];
[195040;165330;0];
[195041;165357;0];
[195042;37012;0];
[195043;37105;0];
[195044;37137;0];
[195045;165678;0];
[195046;37147;0];
[195047;37432;0];
[195048;37591;0];
[195049;37592;0];
[195050;37500;0];
[195051;37881;0];
[195052;37909;0];
[195053;166906;0];
[195054;38283;0];
[195055;18837;0];
[195056;38327;0];
[195057;167287;0];
[195058;18918;0];
[195059;38595;0];
[195060;23986;0];
[195061;38691;0];
[195062;168261;0];
[195063;168474;0];
[195064;19054;0];
[195065;19062;0];
[195066;38880;0];
[195067;168970;0];
[195068;19122;0];
[195069;169110;0];
[195070;38923;0];
[195071;38923;0];
[195072;38953;0];
[195073;169398;0];
[195074;39138;0];
[195075;19251;0];
[195076;39209;0];
[195077;39335;0];
[195078;39362;0];
[195079;39422;0];
[195080;19406;0];
[195081;170800;0];
[195082;39698;0];
[195083;40000;0];
[195084;40189;0];
[195085;19662;0];
[195086;19693;0];
[195087;40295;0];
[195088;172238;0];
[195089;19704;0];
[195090;172293;0];
[195091;172558;0];
[195092;172689;0];
[195093;40635;0];
[195094;19798;0];
[195095;40697;0];
[195096;40702;0];
[195097;40709;0];
[195098;40719;0];
[195099;40726;0];
[195100;40763;0];
[195101;173568;0]
].

(** src/u5e/props/compatibility_and_canonical_decomposition_mapping_data.hpp, 2780 rows *)
Definition compatibility_and_canonical_decomposition_mapping_data : list (list Z) := [
[168;32;776;0];
[175;32;772;0];
[180;32;769;0];
[181;956;0];
[184;32;807;0];
[192;65;768;0];
[193;65;769;0];
[194;65;770;0];
[195;65;771;0];
[196;65;776;0];
[197;65;778;0];
[199;67;807;0];
[200;69;768;0];
[201;69;769;0];
[202;69;770;0];
[203;69;776;0];
[204;73;768;0];
[205;73;769;0];
[206;73;770;0];
[207;73;776;0];
[209;78;771;0];
[210;79;768;0];
[211;79;769;0];
[212;79;770;0];
[213;79;771;0];
[214;79;776;0];
[217;85;768;0];
[218;85;769;0];
[219;85;770;0];
[220;85;776;0];
[221;89;769;0];
[224;97;768;0];
[225;97;769;0];
[226;97;770;0];
[227;97;771;0];
[228;97;776;0];
[229;97;778;0];
[231;99;807;0];
[232;101;768;0];
[233;101;769;0];
[234;101;770;0];
[235;101;776;0];
[236;105;768;0];
[237;105;769;0];
[238;105;770;0];
[239;105;776;0];
[241;110;771;0];
[242;111;768;0];
[243;111;769;0];
[244;111;770;0];
[245;111;771;0];
[246;111;776;0];
[249;117;768;0];
[250;117;769;0];
[251;117;770;0];
[252;117;776;0];
[253;121;769;0];
[255;121;776;0];
[256;65;772;0];
[257;97;772;0];
[258;65;774;0];
[259;97;774;0];
[260;65;808;0];
[261;97;808;0];
[262;67;769;0];
[263;99;769;0];
[264;67;770;0];
[265;99;770;0];
[266;67;775;0];
[267;99;775;0];
[268;67;780;0];
[269;99;780;0];
[270;68;780;0];
[271;100;780;0];
[274;69;772;0];
[275;101;772;0];
[276;69;774;0];
[277;101;774;0];
[278;69;775;0];
[279;101;775;0];
[280;69;808;0];
[281;101;808;0];
[282;69;780;0];
[283;101;780;0];
[284;71;770;0];
[285;103;770;0];
[286;71;774;0];
[287;103;774;0];
[288;71;775;0];
[289;103;775;0];
[290;71;807;0];
[291;103;807;0];
[292;72;770;0];
[293;104;770;0];
[296;73;771;0];
[297;105;771;0];
[298;73;772;0];
[299;105;772;0];
[300;73;774;0];
[301;105;774;0];
[302;73;808;0];
[303;105;808;0];
[304;73;775;0];
[306;73;74;0];
[307;105;106;0];
[308;74;770;0];
[309;106;770;0];
[310;75;807;0];
[311;107;807;0];
[313;76;769;0];
[314;108;769;0];
[315;76;807;0];
[316;108;807;0];
[317;76;780;0];
[318;108;780;0];
[319;76;183;0];
[320;108;183;0];
[323;78;769;0];
[324;110;769;0];
[325;78;807;0];
[326;110;807;0];
[327;78;780;0];
[328;110;780;0];
[329;700;110;0];
[332;79;772;0];
[333;111;772;0];
[334;79;774;0];
[335;111;774;0];
[336;79;779;0];
[337;111;779;0];
[340;82;769;0];
[341;114;769;0];
[342;82;807;0];
[343;114;807;0];
[344;82;780;0];
[345;114;780;0];
[346;83;769;0];
[347;115;769;0];
[348;83;770;0];
[349;115;770;0];
[350;83;807;0];
[351;115;807;0];
[352;83;780;0];
[353;115;780;0];
[354;84;807;0];
[355;116;807;0];
[356;84;780;0];
[357;116;780;0];
[360;85;771;0];
[361;117;771;0];
[362;85;772;0];
[363;117;772;0];
[364;85;774;0];
[365;117;774;0];
[366;85;778;0];
[367;117;778;0];
[368;85;779;0];
[369;117;779;0];
[370;85;808;0];
[371;117;808;0];
[372;87;770;0];
[373;119;770;0];
[374;89;770;0];
[375;121;770;0];
[376;89;776;0];
[377;90;769;0];
[378;122;769;0];
[379;90;775;0];
[380;122;775;0];
[381;90;780;0];
[382;122;780;0];
[383;115;0];
[416;79;795;0];
[417;111;795;0];
[431;85;795;0];
[432;117;795;0];
[452;68;90;780;0];
[453;68;122;780;0];
[454;100;122;780;0];
[455;76;74;0];
[456;76;106;0];
[457;108;106;0];
[458;78;74;0];
[459;78;106;0];
[460;110;106;0];
[461;65;780;0];
[462;97;780;0];
[463;73;780;0];
[464;105;780;0];
[465;79;780;0];
[466;111;780;0];
[467;85;780;0];
[468;117;780;0];
[469;85;776;772;0];
[470;117;776;772;0];
[471;85;776;769;0];
[472;117;776;769;0];
[473;85;776;780;0];
[474;117;776;780;0];
[475;85;776;768;0];
[476;117;776;768;0];
[478;65;776;772;0];
[479;97;776;772;0];
[480;65;775;772;0];
[481;97;775;772;0];
[482;198;772;0];
[483;230;772;0];
[486;71;780;0];
[487;103;780;0];
[488;75;780;0];
[489;107;780;0];
[490;79;808;0];
[491;111;808;0];
[492;79;808;772;0];
[493;111;808;772;0];
[494;439;780;0];
[495;658;780;0];
[496;106;780;0];
[497;68;90;0];
[498;68;122;0];
[499;100;122;0];
[500;71;769;0];
[501;103;769;0];
[504;78;768;0];
[505;110;768;0];
[506;65;778;769;0];
[507;97;778;769;0];
[508;198;769;0];
[509;230;769;0];
[510;216;769;0];
[511;248;769;0];
[512;65;783;0];
[513;97;783;0];
[514;65;785;0];
[515;97;785;0];
[516;69;783;0];
[517;101;783;0];
[518;69;785;0];
[519;101;785;0];
[520;73;783;0];
[521;105;783;0];
[522;73;785;0];
[523;105;785;0];
[524;79;783;0];
[525;111;783;0];
[526;79;785;0];
[527;111;785;0];
[528;82;783;0];
[529;114;783;0];
[530;82;785;0];
[531;114;785;0];
[532;85;783;0];
[533;117;783;0];
[534;85;785;0];
[535;117;785;0];
[536;83;806;0];
[537;115;806;0];
[538;84;806;0];
[539;116;806;0];
[542;72;780;0];
[543;104;780;0];
[550;65;775;0];
[551;97;775;0];
[552;69;807;0];
[553;101;807;0];
[554;79;776;772;0];
[555;111;776;772;0];
[556;79;771;772;0];
[557;111;771;772;0];
[558;79;775;0];
[559;111;775;0];
[560;79;775;772;0];
[561;111;775;772;0];
[562;89;772;0];
[563;121;772;0];
[728;32;774;0];
[729;32;775;0];
[730;32;778;0];
[731;32;808;0];
[732;32;771;0];
[733;32;779;0];
[832;768;0];
[833;769;0];
[835;787;0];
[836;776;769;0];
[884;697;0];
[890;32;837;0];
[894;59;0];
[900;32;769;0];
[901;32;776;769;0];
[902;913;769;0];
[903;183;0];
[904;917;769;0];
[905;919;769;0];
[906;921;769;0];
[908;927;769;0];
[910;933;769;0];
[911;937;769;0];
[912;953;776;769;0];
[938;921;776;0];
[939;933;776;0];
[940;945;769;0];
[941;949;769;0];
[942;951;769;0];
[943;953;769;0];
[944;965;776;769;0];
[970;953;776;0];
[971;965;776;0];
[972;959;769;0];
[973;965;769;0];
[974;969;769;0];
[976;946;0];
[977;952;0];
[978;933;0];
[979;933;769;0];
[980;933;776;0];
[981;966;0];
[982;960;0];
[1008;954;0];
[1009;961;0];
[1010;962;0];
[1012;920;0];
[1013;949;0];
[1017;931;0];
[1024;1045;768;0];
[1025;1045;776;0];
[1027;1043;769;0];
[1031;1030;776;0];
[1036;1050;769;0];
[1037;1048;768;0];
[1038;1059;774;0];
[1049;1048;774;0];
[1081;1080;774;0];
[1104;1077;768;0];
[1105;1077;776;0];
[1107;1075;769;0];
[1111;1110;776;0];
[1116;1082;769;0];
[1117;1080;768;0];
[1118;1091;774;0];
[1142;1140;783;0];
[1143;1141;783;0];
[1217;1046;774;0];
[1218;1078;774;0];
[1232;1040;774;0];
[1233;1072;774;0];
[1234;1040;776;0];
[1235;1072;776;0];
[1238;1045;774;0];
[1239;1077;774;0];
[1242;1240;776;0];
[1243;1241;776;0];
[1244;1046;776;0];
[1245;1078;776;0];
[1246;1047;776;0];
[1247;1079;776;0];
[1250;1048;772;0];
[1251;1080;772;0];
[1252;1048;776;0];
[1253;1080;776;0];
[1254;1054;776;0];
[1255;1086;776;0];
[1258;1256;776;0];
[1259;1257;776;0];
[1260;1069;776;0];
[1261;1101;776;0];
[1262;1059;772;0];
[1263;1091;772;0];
[1264;1059;776;0];
[1265;1091;776;0];
[1266;1059;779;0];
[1267;1091;779;0];
[1268;1063;776;0];
[1269;1095;776;0];
[1272;1067;776;0];
[1273;1099;776;0];
[1415;1381;1410;0];
[1570;1575;1619;0];
[1571;1575;1620;0];
[1572;1608;1620;0];
[1573;1575;1621;0];
[1574;1610;1620;0];
[1653;1575;1652;0];
[1654;1608;1652;0];
[1655;1735;1652;0];
[1656;1610;1652;0];
[1728;1749;1620;0];
[1730;1729;1620;0];
[1747;1746;1620;0];
[2345;2344;2364;0];
[2353;2352;2364;0];
[2356;2355;2364;0];
[2392;2325;2364;0];
[2393;2326;2364;0];
[2394;2327;2364;0];
[2395;2332;2364;0];
[2396;2337;2364;0];
[2397;2338;2364;0];
[2398;2347;2364;0];
[2399;2351;2364;0];
[2507;2503;2494;0];
[2508;2503;2519;0];
[2524;2465;2492;0];
[2525;2466;2492;0];
[2527;2479;2492;0];
[2611;2610;2620;0];
[2614;2616;2620;0];
[2649;2582;2620;0];
[2650;2583;2620;0];
[2651;2588;2620;0];
[2654;2603;2620;0];
[2888;2887;2902;0];
[2891;2887;2878;0];
[2892;2887;2903;0];
[2908;2849;2876;0];
[2909;2850;2876;0];
[2964;2962;3031;0];
[3018;3014;3006;0];
[3019;3015;3006;0];
[3020;3014;3031;0];
[3144;3142;3158;0];
[3264;3263;3285;0];
[3271;3270;3285;0];
[3272;3270;3286;0];
[3274;3270;3266;0];
[3275;3270;3266;3285;0];
[3402;3398;3390;0];
[3403;3399;3390;0];
[3404;3398;3415;0];
[3546;3545;3530;0];
[3548;3545;3535;0];
[3549;3545;3535;3530;0];
[3550;3545;3551;0];
[3635;3661;3634;0];
[3763;3789;3762;0];
[3804;3755;3737;0];
[3805;3755;3745;0];
[3907;3906;4023;0];
[3917;3916;4023;0];
[3922;3921;4023;0];
[3927;3926;4023;0];
[3932;3931;4023;0];
[3945;3904;4021;0];
[3955;3953;3954;0];
[3957;3953;3956;0];
[3958;4018;3968;0];
[3959;4018;3953;3968;0];
[3960;4019;3968;0];
[3961;4019;3953;3968;0];
[3969;3953;3968;0];
[3987;3986;4023;0];
[3997;3996;4023;0];
[4002;4001;4023;0];
[4007;4006;4023;0];
[4012;4011;4023;0];
[4025;3984;4021;0];
[4134;4133;4142;0];
[6918;6917;6965;0];
[6920;6919;6965;0];
[6922;6921;6965;0];
[6924;6923;6965;0];
[6926;6925;6965;0];
[6930;6929;6965;0];
[6971;6970;6965;0];
[6973;6972;6965;0];
[6976;6974;6965;0];
[6977;6975;6965;0];
[6979;6978;6965;0];
[7680;65;805;0];
[7681;97;805;0];
[7682;66;775;0];
[7683;98;775;0];
[7684;66;803;0];
[7685;98;803;0];
[7686;66;817;0];
[7687;98;817;0];
[7688;67;807;769;0];
[7689;99;807;769;0];
[7690;68;775;0];
[7691;100;775;0];
[7692;68;803;0];
[7693;100;803;0];
[7694;68;817;0];
[7695;100;817;0];
[7696;68;807;0];
[7697;100;807;0];
[7698;68;813;0];
[7699;100;813;0];
[7700;69;772;768;0];
[7701;101;772;768;0];
[7702;69;772;769;0];
[7703;101;772;769;0];
[7704;69;813;0];
[7705;101;813;0];
[7706;69;816;0];
[7707;101;816;0];
[7708;69;807;774;0];
[7709;101;807;774;0];
[7710;70;775;0];
[7711;102;775;0];
[7712;71;772;0];
[7713;103;772;0];
[7714;72;775;0];
[7715;104;775;0];
[7716;72;803;0];
[7717;104;803;0];
[7718;72;776;0];
[7719;104;776;0];
[7720;72;807;0];
[7721;104;807;0];
[7722;72;814;0];
[7723;104;814;0];
[7724;73;816;0];
[7725;105;816;0];
[7726;73;776;769;0];
[7727;105;776;769;0];
[7728;75;769;0];
[7729;107;769;0];
[7730;75;803;0];
[7731;107;803;0];
[7732;75;817;0];
[7733;107;817;0];
[7734;76;803;0];
[7735;108;803;0];
[7736;76;803;772;0];
[7737;108;803;772;0];
[7738;76;817;0];
[7739;108;817;0];
[7740;76;813;0];
[7741;108;813;0];
[7742;77;769;0];
[7743;109;769;0];
[7744;77;775;0];
[7745;109;775;0];
[7746;77;803;0];
[7747;109;803;0];
[7748;78;775;0];
[7749;110;775;0];
[7750;78;803;0];
[7751;110;803;0];
[7752;78;817;0];
[7753;110;817;0];
[7754;78;813;0];
[7755;110;813;0];
[7756;79;771;769;0];
[7757;111;771;769;0];
[7758;79;771;776;0];
[7759;111;771;776;0];
[7760;79;772;768;0];
[7761;111;772;768;0];
[7762;79;772;769;0];
[7763;111;772;769;0];
[7764;80;769;0];
[7765;112;769;0];
[7766;80;775;0];
[7767;112;775;0];
[7768;82;775;0];
[7769;114;775;0];
[7770;82;803;0];
[7771;114;803;0];
[7772;82;803;772;0];
[7773;114;803;772;0];
[7774;82;817;0];
[7775;114;817;0];
[7776;83;775;0];
[7777;115;775;0];
[7778;83;803;0];
[7779;115;803;0];
[7780;83;769;775;0];
[7781;115;769;775;0];
[7782;83;780;775;0];
[7783;115;780;775;0];
[7784;83;803;775;0];
[7785;115;803;775;0];
[7786;84;775;0];
[7787;116;775;0];
[7788;84;803;0];
[7789;116;803;0];
[7790;84;817;0];
[7791;116;817;0];
[7792;84;813;0];
[7793;116;813;0];
[7794;85;804;0];
[7795;117;804;0];
[7796;85;816;0];
[7797;117;816;0];
[7798;85;813;0];
[7799;117;813;0];
[7800;85;771;769;0];
[7801;117;771;769;0];
[7802;85;772;776;0];
[7803;117;772;776;0];
[7804;86;771;0];
[7805;118;771;0];
[7806;86;803;0];
[7807;118;803;0];
[7808;87;768;0];
[7809;119;768;0];
[7810;87;769;0];
[7811;119;769;0];
[7812;87;776;0];
[7813;119;776;0];
[7814;87;775;0];
[7815;119;775;0];
[7816;87;803;0];
[7817;119;803;0];
[7818;88;775;0];
[7819;120;775;0];
[7820;88;776;0];
[7821;120;776;0];
[7822;89;775;0];
[7823;121;775;0];
[7824;90;770;0];
[7825;122;770;0];
[7826;90;803;0];
[7827;122;803;0];
[7828;90;817;0];
[7829;122;817;0];
[7830;104;817;0];
[7831;116;776;0];
[7832;119;778;0];
[7833;121;778;0];
[7834;97;702;0];
[7835;115;775;0];
[7840;65;803;0];
[7841;97;803;0];
[7842;65;777;0];
[7843;97;777;0];
[7844;65;770;769;0];
[7845;97;770;769;0];
[7846;65;770;768;0];
[7847;97;770;768;0];
[7848;65;770;777;0];
[7849;97;770;777;0];
[7850;65;770;771;0];
[7851;97;770;771;0];
[7852;65;803;770;0];
[7853;97;803;770;0];
[7854;65;774;769;0];
[7855;97;774;769;0];
[7856;65;774;768;0];
[7857;97;774;768;0];
[7858;65;774;777;0];
[7859;97;774;777;0];
[7860;65;774;771;0];
[7861;97;774;771;0];
[7862;65;803;774;0];
[7863;97;803;774;0];
[7864;69;803;0];
[7865;101;803;0];
[7866;69;777;0];
[7867;101;777;0];
[7868;69;771;0];
[7869;101;771;0];
[7870;69;770;769;0];
[7871;101;770;769;0];
[7872;69;770;768;0];
[7873;101;770;768;0];
[7874;69;770;777;0];
[7875;101;770;777;0];
[7876;69;770;771;0];
[7877;101;770;771;0];
[7878;69;803;770;0];
[7879;101;803;770;0];
[7880;73;777;0];
[7881;105;777;0];
[7882;73;803;0];
[7883;105;803;0];
[7884;79;803;0];
[7885;111;803;0];
[7886;79;777;0];
[7887;111;777;0];
[7888;79;770;769;0];
[7889;111;770;769;0];
[7890;79;770;768;0];
[7891;111;770;768;0];
[7892;79;770;777;0];
[7893;111;770;777;0];
[7894;79;770;771;0];
[7895;111;770;771;0];
[7896;79;803;770;0];
[7897;111;803;770;0];
[7898;79;795;769;0];
[7899;111;795;769;0];
[7900;79;795;768;0];
[7901;111;795;768;0];
[7902;79;795;777;0];
[7903;111;795;777;0];
[7904;79;795;771;0];
[7905;111;795;771;0];
[7906;79;795;803;0];
[7907;111;795;803;0];
[7908;85;803;0];
[7909;117;803;0];
[7910;85;777;0];
[7911;117;777;0];
[7912;85;795;769;0];
[7913;117;795;769;0];
[7914;85;795;768;0];
[7915;117;795;768;0];
[7916;85;795;777;0];
[7917;117;795;777;0];
[7918;85;795;771;0];
[7919;117;795;771;0];
[7920;85;795;803;0];
[7921;117;795;803;0];
[7922;89;768;0];
[7923;121;768;0];
[7924;89;803;0];
[7925;121;803;0];
[7926;89;777;0];
[7927;121;777;0];
[7928;89;771;0];
[7929;121;771;0];
[7936;945;787;0];
[7937;945;788;0];
[7938;945;787;768;0];
[7939;945;788;768;0];
[7940;945;787;769;0];
[7941;945;788;769;0];
[7942;945;787;834;0];
[7943;945;788;834;0];
[7944;913;787;0];
[7945;913;788;0];
[7946;913;787;768;0];
[7947;913;788;768;0];
[7948;913;787;769;0];
[7949;913;788;769;0];
[7950;913;787;834;0];
[7951;913;788;834;0];
[7952;949;787;0];
[7953;949;788;0];
[7954;949;787;768;0];
[7955;949;788;768;0];
[7956;949;787;769;0];
[7957;949;788;769;0];
[7960;917;787;0];
[7961;917;788;0];
[7962;917;787;768;0];
[7963;917;788;768;0];
[7964;917;787;769;0];
[7965;917;788;769;0];
[7968;951;787;0];
[7969;951;788;0];
[7970;951;787;768;0];
[7971;951;788;768;0];
[7972;951;787;769;0];
[7973;951;788;769;0];
[7974;951;787;834;0];
[7975;951;788;834;0];
[7976;919;787;0];
[7977;919;788;0];
[7978;919;787;768;0];
[7979;919;788;768;0];
[7980;919;787;769;0];
[7981;919;788;769;0];
[7982;919;787;834;0];
[7983;919;788;834;0];
[7984;953;787;0];
[7985;953;788;0];
[7986;953;787;768;0];
[7987;953;788;768;0];
[7988;953;787;769;0];
[7989;953;788;769;0];
[7990;953;787;834;0];
[7991;953;788;834;0];
[7992;921;787;0];
[7993;921;788;0];
[7994;921;787;768;0];
[7995;921;788;768;0];
[7996;921;787;769;0];
[7997;921;788;769;0];
[7998;921;787;834;0];
[7999;921;788;834;0];
[8000;959;787;0];
[8001;959;788;0];
[8002;959;787;768;0];
[8003;959;788;768;0];
[8004;959;787;769;0];
[8005;959;788;769;0];
[8008;927;787;0];
[8009;927;788;0];
[8010;927;787;768;0];
[8011;927;788;768;0];
[8012;927;787;769;0];
[8013;927;788;769;0];
[8016;965;787;0];
[8017;965;788;0];
[8018;965;787;768;0];
[8019;965;788;768;0];
[8020;965;787;769;0];
[8021;965;788;769;0];
[8022;965;787;834;0];
[8023;965;788;834;0];
[8025;933;788;0];
[8027;933;788;768;0];
[8029;933;788;769;0];
[8031;933;788;834;0];
[8032;969;787;0];
[8033;969;788;0];
[8034;969;787;768;0];
[8035;969;788;768;0];
[8036;969;787;769;0];
[8037;969;788;769;0];
[8038;969;787;834;0];
[8039;969;788;834;0];
[8040;937;787;0];
[8041;937;788;0];
[8042;937;787;768;0];
[8043;937;788;768;0];
[8044;937;787;769;0];
[8045;937;788;769;0];
[8046;937;787;834;0];
[8047;937;788;834;0];
[8048;945;768;0];
[8049;945;769;0];
[8050;949;768;0];
[8051;949;769;0];
[8052;951;768;0];
[8053;951;769;0];
[8054;953;768;0];
[8055;953;769;0];
[8056;959;768;0];
[8057;959;769;0];
[8058;965;768;0];
[8059;965;769;0];
[8060;969;768;0];
[8061;969;769;0];
[8064;945;787;837;0];
[8065;945;788;837;0];
[8066;945;787;768;837;0];
[8067;945;788;768;837;0];
[8068;945;787;769;837;0];
[8069;945;788;769;837;0];
[8070;945;787;834;837;0];
[8071;945;788;834;837;0];
[8072;913;787;837;0];
[8073;913;788;837;0];
[8074;913;787;768;837;0];
[8075;913;788;768;837;0];
[8076;913;787;769;837;0];
[8077;913;788;769;837;0];
[8078;913;787;834;837;0];
[8079;913;788;834;837;0];
[8080;951;787;837;0];
[8081;951;788;837;0];
[8082;951;787;768;837;0];
[8083;951;788;768;837;0];
[8084;951;787;769;837;0];
[8085;951;788;769;837;0];
[8086;951;787;834;837;0];
[8087;951;788;834;837;0];
[8088;919;787;837;0];
[8089;919;788;837;0];
[8090;919;787;768;837;0];
[8091;919;788;768;837;0];
[8092;919;787;769;837;0];
[8093;919;788;769;837;0];
[8094;919;787;834;837;0];
[8095;919;788;834;837;0];
[8096;969;787;837;0];
[8097;969;788;837;0];
[8098;969;787;768;837;0];
[8099;969;788;768;837;0];
[8100;969;787;769;837;0];
[8101;969;788;769;837;0];
[8102;969;787;834;837;0];
[8103;969;788;834;837;0];
[8104;937;787;837;0];
[8105;937;788;837;0];
[8106;937;787;768;837;0];
[8107;937;788;768;837;0];
[8108;937;787;769;837;0];
[8109;937;788;769;837;0];
[8110;937;787;834;837;0];
[8111;937;788;834;837;0];
[8112;945;774;0];
[8113;945;772;0];
[8114;945;768;837;0];
[8115;945;837;0];
[8116;945;769;837;0];
[8118;945;834;0];
[8119;945;834;837;0];
[8120;913;774;0];
[8121;913;772;0];
[8122;913;768;0];
[8123;913;769;0];
[8124;913;837;0];
[8125;32;787;0];
[8126;953;0];
[8127;32;787;0];
[8128;32;834;0];
[8129;32;776;834;0];
[8130;951;768;837;0];
[8131;951;837;0];
[8132;951;769;837;0];
[8134;951;834;0];
[8135;951;834;837;0];
[8136;917;768;0];
[8137;917;769;0];
[8138;919;768;0];
[8139;919;769;0];
[8140;919;837;0];
[8141;32;787;768;0];
[8142;32;787;769;0];
[8143;32;787;834;0];
[8144;953;774;0];
[8145;953;772;0];
[8146;953;776;768;0];
[8147;953;776;769;0];
[8150;953;834;0];
[8151;953;776;834;0];
[8152;921;774;0];
[8153;921;772;0];
[8154;921;768;0];
[8155;921;769;0];
[8157;32;788;768;0];
[8158;32;788;769;0];
[8159;32;788;834;0];
[8160;965;774;0];
[8161;965;772;0];
[8162;965;776;768;0];
[8163;965;776;769;0];
[8164;961;787;0];
[8165;961;788;0];
[8166;965;834;0];
[8167;965;776;834;0];
[8168;933;774;0];
[8169;933;772;0];
[8170;933;768;0];
[8171;933;769;0];
[8172;929;788;0];
[8173;32;776;768;0];
[8174;32;776;769;0];
[8175;96;0];
[8178;969;768;837;0];
[8179;969;837;0];
[8180;969;769;837;0];
[8182;969;834;0];
[8183;969;834;837;0];
[8184;927;768;0];
[8185;927;769;0];
[8186;937;768;0];
[8187;937;769;0];
[8188;937;837;0];
[8189;32;769;0];
[8190;32;788;0];
[8192;32;0];
[8193;32;0];
[8194;32;0];
[8195;32;0];
[8196;32;0];
[8197;32;0];
[8198;32;0];
[8200;32;0];
[8201;32;0];
[8202;32;0];
[8215;32;819;0];
[8228;46;0];
[8229;46;46;0];
[8230;46;46;46;0];
[8243;8242;8242;0];
[8244;8242;8242;8242;0];
[8246;8245;8245;0];
[8247;8245;8245;8245;0];
[8252;33;33;0];
[8254;32;773;0];
[8263;63;63;0];
[8264;63;33;0];
[8265;33;63;0];
[8279;8242;8242;8242;8242;0];
[8287;32;0];
[8360;82;115;0];
[8448;97;47;99;0];
[8449;97;47;115;0];
[8451;176;67;0];
[8453;99;47;111;0];
[8454;99;47;117;0];
[8455;400;0];
[8457;176;70;0];
[8470;78;111;0];
[8481;84;69;76;0];
[8486;937;0];
[8490;75;0];
[8491;65;778;0];
[8501;1488;0];
[8502;1489;0];
[8503;1490;0];
[8504;1491;0];
[8507;70;65;88;0];
[8544;73;0];
[8545;73;73;0];
[8546;73;73;73;0];
[8547;73;86;0];
[8548;86;0];
[8549;86;73;0];
[8550;86;73;73;0];
[8551;86;73;73;73;0];
[8552;73;88;0];
[8553;88;0];
[8554;88;73;0];
[8555;88;73;73;0];
[8556;76;0];
[8557;67;0];
[8558;68;0];
[8559;77;0];
[8560;105;0];
[8561;105;105;0];
[8562;105;105;105;0];
[8563;105;118;0];
[8564;118;0];
[8565;118;105;0];
[8566;118;105;105;0];
[8567;118;105;105;105;0];
[8568;105;120;0];
[8569;120;0];
[8570;120;105;0];
[8571;120;105;105;0];
[8572;108;0];
[8573;99;0];
[8574;100;0];
[8575;109;0];
[8602;8592;824;0];
[8603;8594;824;0];
[8622;8596;824;0];
[8653;8656;824;0];
[8654;8660;824;0];
[8655;8658;824;0];
[8708;8707;824;0];
[8713;8712;824;0];
[8716;8715;824;0];
[8740;8739;824;0];
[8742;8741;824;0];
[8748;8747;8747;0];
[8749;8747;8747;8747;0];
[8751;8750;8750;0];
[8752;8750;8750;8750;0];
[8769;8764;824;0];
[8772;8771;824;0];
[8775;8773;824;0];
[8777;8776;824;0];
[8800;61;824;0];
[8802;8801;824;0];
[8813;8781;824;0];
[8814;60;824;0];
[8815;62;824;0];
[8816;8804;824;0];
[8817;8805;824;0];
[8820;8818;824;0];
[8821;8819;824;0];
[8824;8822;824;0];
[8825;8823;824;0];
[8832;8826;824;0];
[8833;8827;824;0];
[8836;8834;824;0];
[8837;8835;824;0];
[8840;8838;824;0];
[8841;8839;824;0];
[8876;8866;824;0];
[8877;8872;824;0];
[8878;8873;824;0];
[8879;8875;824;0];
[8928;8828;824;0];
[8929;8829;824;0];
[8930;8849;824;0];
[8931;8850;824;0];
[8938;8882;824;0];
[8939;8883;824;0];
[8940;8884;824;0];
[8941;8885;824;0];
[9001;12296;0];
[9002;12297;0];
[9332;40;49;41;0];
[9333;40;50;41;0];
[9334;40;51;41;0];
[9335;40;52;41;0];
[9336;40;53;41;0];
[9337;40;54;41;0];
[9338;40;55;41;0];
[9339;40;56;41;0];
[9340;40;57;41;0];
[9341;40;49;48;41;0];
[9342;40;49;49;41;0];
[9343;40;49;50;41;0];
[9344;40;49;51;41;0];
[9345;40;49;52;41;0];
[9346;40;49;53;41;0];
[9347;40;49;54;41;0];
[9348;40;49;55;41;0];
[9349;40;49;56;41;0];
[9350;40;49;57;41;0];
[9351;40;50;48;41;0];
[9352;49;46;0];
[9353;50;46;0];
[9354;51;46;0];
[9355;52;46;0];
[9356;53;46;0];
[9357;54;46;0];
[9358;55;46;0];
[9359;56;46;0];
[9360;57;46;0];
[9361;49;48;46;0];
[9362;49;49;46;0];
[9363;49;50;46;0];
[9364;49;51;46;0];
[9365;49;52;46;0];
[9366;49;53;46;0];
[9367;49;54;46;0];
[9368;49;55;46;0];
[9369;49;56;46;0];
[9370;49;57;46;0];
[9371;50;48;46;0];
[9372;40;97;41;0];
[9373;40;98;41;0];
[9374;40;99;41;0];
[9375;40;100;41;0];
[9376;40;101;41;0];
[9377;40;102;41;0];
[9378;40;103;41;0];
[9379;40;104;41;0];
[9380;40;105;41;0];
[9381;40;106;41;0];
[9382;40;107;41;0];
[9383;40;108;41;0];
[9384;40;109;41;0];
[9385;40;110;41;0];
[9386;40;111;41;0];
[9387;40;112;41;0];
[9388;40;113;41;0];
[9389;40;114;41;0];
[9390;40;115;41;0];
[9391;40;116;41;0];
[9392;40;117;41;0];
[9393;40;118;41;0];
[9394;40;119;41;0];
[9395;40;120;41;0];
[9396;40;121;41;0];
[9397;40;122;41;0];
[10764;8747;8747;8747;8747;0];
[10868;58;58;61;0];
[10869;61;61;0];
[10870;61;61;61;0];
[10972;10973;824;0];
[11935;27597;0];
[12019;40863;0];
[12032;19968;0];
[12033;20008;0];
[12034;20022;0];
[12035;20031;0];
[12036;20057;0];
[12037;20101;0];
[12038;20108;0];
[12039;20128;0];
[12040;20154;0];
[12041;20799;0];
[12042;20837;0];
[12043;20843;0];
[12044;20866;0];
[12045;20886;0];
[12046;20907;0];
[12047;20960;0];
[12048;20981;0];
[12049;20992;0];
[12050;21147;0];
[12051;21241;0];
[12052;21269;0];
[12053;21274;0];
[12054;21304;0];
[12055;21313;0];
[12056;21340;0];
[12057;21353;0];
[12058;21378;0];
[12059;21430;0];
[12060;21448;0];
[12061;21475;0];
[12062;22231;0];
[12063;22303;0];
[12064;22763;0];
[12065;22786;0];
[12066;22794;0];
[12067;22805;0];
[12068;22823;0];
[12069;22899;0];
[12070;23376;0];
[12071;23424;0];
[12072;23544;0];
[12073;23567;0];
[12074;23586;0];
[12075;23608;0];
[12076;23662;0];
[12077;23665;0];
[12078;24027;0];
[12079;24037;0];
[12080;24049;0];
[12081;24062;0];
[12082;24178;0];
[12083;24186;0];
[12084;24191;0];
[12085;24308;0];
[12086;24318;0];
[12087;24331;0];
[12088;24339;0];
[12089;24400;0];
[12090;24417;0];
[12091;24435;0];
[12092;24515;0];
[12093;25096;0];
[12094;25142;0];
[12095;25163;0];
[12096;25903;0];
[12097;25908;0];
[12098;25991;0];
[12099;26007;0];
[12100;26020;0];
[12101;26041;0];
[12102;26080;0];
[12103;26085;0];
[12104;26352;0];
[12105;26376;0];
[12106;26408;0];
[12107;27424;0];
[12108;27490;0];
[12109;27513;0];
[12110;27571;0];
[12111;27595;0];
[12112;27604;0];
[12113;27611;0];
[12114;27663;0];
[12115;27668;0];
[12116;27700;0];
[12117;28779;0];
[12118;29226;0];
[12119;29238;0];
[12120;29243;0];
[12121;29247;0];
[12122;29255;0];
[12123;29273;0];
[12124;29275;0];
[12125;29356;0];
[12126;29572;0];
[12127;29577;0];
[12128;29916;0];
[12129;29926;0];
[12130;29976;0];
[12131;29983;0];
[12132;29992;0];
[12133;30000;0];
[12134;30091;0];
[12135;30098;0];
[12136;30326;0];
[12137;30333;0];
[12138;30382;0];
[12139;30399;0];
[12140;30446;0];
[12141;30683;0];
[12142;30690;0];
[12143;30707;0];
[12144;31034;0];
[12145;31160;0];
[12146;31166;0];
[12147;31348;0];
[12148;31435;0];
[12149;31481;0];
[12150;31859;0];
[12151;31992;0];
[12152;32566;0];
[12153;32593;0];
[12154;32650;0];
[12155;32701;0];
[12156;32769;0];
[12157;32780;0];
[12158;32786;0];
[12159;32819;0];
[12160;32895;0];
[12161;32905;0];
[12162;33251;0];
[12163;33258;0];
[12164;33267;0];
[12165;33276;0];
[12166;33292;0];
[12167;33307;0];
[12168;33311;0];
[12169;33390;0];
[12170;33394;0];
[12171;33400;0];
[12172;34381;0];
[12173;34411;0];
[12174;34880;0];
[12175;34892;0];
[12176;34915;0];
[12177;35198;0];
[12178;35211;0];
[12179;35282;0];
[12180;35328;0];
[12181;35895;0];
[12182;35910;0];
[12183;35925;0];
[12184;35960;0];
[12185;35997;0];
[12186;36196;0];
[12187;36208;0];
[12188;36275;0];
[12189;36523;0];
[12190;36554;0];
[12191;36763;0];
[12192;36784;0];
[12193;36789;0];
[12194;37009;0];
[12195;37193;0];
[12196;37318;0];
[12197;37324;0];
[12198;37329;0];
[12199;38263;0];
[12200;38272;0];
[12201;38428;0];
[12202;38582;0];
[12203;38585;0];
[12204;38632;0];
[12205;38737;0];
[12206;38750;0];
[12207;38754;0];
[12208;38761;0];
[12209;38859;0];
[12210;38893;0];
[12211;38899;0];
[12212;38913;0];
[12213;39080;0];
[12214;39131;0];
[12215;39135;0];
[12216;39318;0];
[12217;39321;0];
[12218;39340;0];
[12219;39592;0];
[12220;39640;0];
[12221;39647;0];
[12222;39717;0];
[12223;39727;0];
[12224;39730;0];
[12225;39740;0];
[12226;39770;0];
[12227;40165;0];
[12228;40565;0];
[12229;40575;0];
[12230;40613;0];
[12231;40635;0];
[12232;40643;0];
[12233;40653;0];
[12234;40657;0];
[12235;40697;0];
[12236;40701;0];
[12237;40718;0];
[12238;40723;0];
[12239;40736;0];
[12240;40763;0];
[12241;40778;0];
[12242;40786;0];
[12243;40845;0];
[12244;40860;0];
[12245;40864;0];
[12342;12306;0];
[12344;21313;0];
[12345;21316;0];
[12346;21317;0];
[12364;12363;12441;0];
[12366;12365;12441;0];
[12368;12367;12441;0];
[12370;12369;12441;0];
[12372;12371;12441;0];
[12374;12373;12441;0];
[12376;12375;12441;0];
[12378;12377;12441;0];
[12380;12379;12441;0];
[12382;12381;12441;0];
[12384;12383;12441;0];
[12386;12385;12441;0];
[12389;12388;12441;0];
[12391;12390;12441;0];
[12393;12392;12441;0];
[12400;12399;12441;0];
[12401;12399;12442;0];
[12403;12402;12441;0];
[12404;12402;12442;0];
[12406;12405;12441;0];
[12407;12405;12442;0];
[12409;12408;12441;0];
[12410;12408;12442;0];
[12412;12411;12441;0];
[12413;12411;12442;0];
[12436;12358;12441;0];
[12443;32;12441;0];
[12444;32;12442;0];
[12446;12445;12441;0];
[12460;12459;12441;0];
[12462;12461;12441;0];
[12464;12463;12441;0];
[12466;12465;12441;0];
[12468;12467;12441;0];
[12470;12469;12441;0];
[12472;12471;12441;0];
[12474;12473;12441;0];
[12476;12475;12441;0];
[12478;12477;12441;0];
[12480;12479;12441;0];
[12482;12481;12441;0];
[12485;12484;12441;0];
[12487;12486;12441;0];
[12489;12488;12441;0];
[12496;12495;12441;0];
[12497;12495;12442;0];
[12499;12498;12441;0];
[12500;12498;12442;0];
[12502;12501;12441;0];
[12503;12501;12442;0];
[12505;12504;12441;0];
[12506;12504;12442;0];
[12508;12507;12441;0];
[12509;12507;12442;0];
[12532;12454;12441;0];
[12535;12527;12441;0];
[12536;12528;12441;0];
[12537;12529;12441;0];
[12538;12530;12441;0];
[12542;12541;12441;0];
[12593;4352;0];
[12594;4353;0];
[12595;4522;0];
[12596;4354;0];
[12597;4524;0];
[12598;4525;0];
[12599;4355;0];
[12600;4356;0];
[12601;4357;0];
[12602;4528;0];
[12603;4529;0];
[12604;4530;0];
[12605;4531;0];
[12606;4532;0];
[12607;4533;0];
[12608;4378;0];
[12609;4358;0];
[12610;4359;0];
[12611;4360;0];
[12612;4385;0];
[12613;4361;0];
[12614;4362;0];
[12615;4363;0];
[12616;4364;0];
[12617;4365;0];
[12618;4366;0];
[12619;4367;0];
[12620;4368;0];
[12621;4369;0];
[12622;4370;0];
[12623;4449;0];
[12624;4450;0];
[12625;4451;0];
[12626;4452;0];
[12627;4453;0];
[12628;4454;0];
[12629;4455;0];
[12630;4456;0];
[12631;4457;0];
[12632;4458;0];
[12633;4459;0];
[12634;4460;0];
[12635;4461;0];
[12636;4462;0];
[12637;4463;0];
[12638;4464;0];
[12639;4465;0];
[12640;4466;0];
[12641;4467;0];
[12642;4468;0];
[12643;4469;0];
[12644;4448;0];
[12645;4372;0];
[12646;4373;0];
[12647;4551;0];
[12648;4552;0];
[12649;4556;0];
[12650;4558;0];
[12651;4563;0];
[12652;4567;0];
[12653;4569;0];
[12654;4380;0];
[12655;4573;0];
[12656;4575;0];
[12657;4381;0];
[12658;4382;0];
[12659;4384;0];
[12660;4386;0];
[12661;4387;0];
[12662;4391;0];
[12663;4393;0];
[12664;4395;0];
[12665;4396;0];
[12666;4397;0];
[12667;4398;0];
[12668;4399;0];
[12669;4402;0];
[12670;4406;0];
[12671;4416;0];
[12672;4423;0];
[12673;4428;0];
[12674;4593;0];
[12675;4594;0];
[12676;4439;0];
[12677;4440;0];
[12678;4441;0];
[12679;4484;0];
[12680;4485;0];
[12681;4488;0];
[12682;4497;0];
[12683;4498;0];
[12684;4500;0];
[12685;4510;0];
[12686;4513;0];
[12800;40;4352;41;0];
[12801;40;4354;41;0];
[12802;40;4355;41;0];
[12803;40;4357;41;0];
[12804;40;4358;41;0];
[12805;40;4359;41;0];
[12806;40;4361;41;0];
[12807;40;4363;41;0];
[12808;40;4364;41;0];
[12809;40;4366;41;0];
[12810;40;4367;41;0];
[12811;40;4368;41;0];
[12812;40;4369;41;0];
[12813;40;4370;41;0];
[12814;40;4352;4449;41;0];
[12815;40;4354;4449;41;0];
[12816;40;4355;4449;41;0];
[12817;40;4357;4449;41;0];
[12818;40;4358;4449;41;0];
[12819;40;4359;4449;41;0];
[12820;40;4361;4449;41;0];
[12821;40;4363;4449;41;0];
[12822;40;4364;4449;41;0];
[12823;40;4366;4449;41;0];
[12824;40;4367;4449;41;0];
[12825;40;4368;4449;41;0];
[12826;40;4369;4449;41;0];
[12827;40;4370;4449;41;0];
[12828;40;4364;4462;41;0];
[12829;40;4363;4457;4364;4453;4523;41;0];
[12830;40;4363;4457;4370;4462;41;0];
[12832;40;19968;41;0];
[12833;40;20108;41;0];
[12834;40;19977;41;0];
[12835;40;22235;41;0];
[12836;40;20116;41;0];
[12837;40;20845;41;0];
[12838;40;19971;41;0];
[12839;40;20843;41;0];
[12840;40;20061;41;0];
[12841;40;21313;41;0];
[12842;40;26376;41;0];
[12843;40;28779;41;0];
[12844;40;27700;41;0];
[12845;40;26408;41;0];
[12846;40;37329;41;0];
[12847;40;22303;41;0];
[12848;40;26085;41;0];
[12849;40;26666;41;0];
[12850;40;26377;41;0];
[12851;40;31038;41;0];
[12852;40;21517;41;0];
[12853;40;29305;41;0];
[12854;40;36001;41;0];
[12855;40;31069;41;0];
[12856;40;21172;41;0];
[12857;40;20195;41;0];
[12858;40;21628;41;0];
[12859;40;23398;41;0];
[12860;40;30435;41;0];
[12861;40;20225;41;0];
[12862;40;36039;41;0];
[12863;40;21332;41;0];
[12864;40;31085;41;0];
[12865;40;20241;41;0];
[12866;40;33258;41;0];
[12867;40;33267;41;0];
[12992;49;26376;0];
[12993;50;26376;0];
[12994;51;26376;0];
[12995;52;26376;0];
[12996;53;26376;0];
[12997;54;26376;0];
[12998;55;26376;0];
[12999;56;26376;0];
[13000;57;26376;0];
[13001;49;48;26376;0];
[13002;49;49;26376;0];
[13003;49;50;26376;0];
[13144;48;28857;0];
[13145;49;28857;0];
[13146;50;28857;0];
[13147;51;28857;0];
[13148;52;28857;0];
[13149;53;28857;0];
[13150;54;28857;0];
[13151;55;28857;0];
[13152;56;28857;0];
[13153;57;28857;0];
[13154;49;48;28857;0];
[13155;49;49;28857;0];
[13156;49;50;28857;0];
[13157;49;51;28857;0];
[13158;49;52;28857;0];
[13159;49;53;28857;0];
[13160;49;54;28857;0];
[13161;49;55;28857;0];
[13162;49;56;28857;0];
[13163;49;57;28857;0];
[13164;50;48;28857;0];
[13165;50;49;28857;0];
[13166;50;50;28857;0];
[13167;50;51;28857;0];
[13168;50;52;28857;0];
[13280;49;26085;0];
[13281;50;26085;0];
[13282;51;26085;0];
[13283;52;26085;0];
[13284;53;26085;0];
[13285;54;26085;0];
[13286;55;26085;0];
[13287;56;26085;0];
[13288;57;26085;0];
[13289;49;48;26085;0];
[13290;49;49;26085;0];
[13291;49;50;26085;0];
[13292;49;51;26085;0];
[13293;49;52;26085;0];
[13294;49;53;26085;0];
[13295;49;54;26085;0];
[13296;49;55;26085;0];
[13297;49;56;26085;0];
[13298;49;57;26085;0];
[13299;50;48;26085;0];
[13300;50;49;26085;0];
[13301;50;50;26085;0];
[13302;50;51;26085;0];
[13303;50;52;26085;0];
[13304;50;53;26085;0];
[13305;50;54;26085;0];
[13306;50;55;26085;0];
[13307;50;56;26085;0];
[13308;50;57;26085;0];
[13309;51;48;26085;0];
[13310;51;49;26085;0];
[63744;35912;0];
[63745;26356;0];
[63746;36554;0];
[63747;36040;0];
[63748;28369;0];
[63749;20018;0];
[63750;21477;0];
[63751;40860;0];
[63752;40860;0];
[63753;22865;0];
[63754;37329;0];
[63755;21895;0];
[63756;22856;0];
[63757;25078;0];
[63758;30313;0];
[63759;32645;0];
[63760;34367;0];
[63761;34746;0];
[63762;35064;0];
[63763;37007;0];
[63764;27138;0];
[63765;27931;0];
[63766;28889;0];
[63767;29662;0];
[63768;33853;0];
[63769;37226;0];
[63770;39409;0];
[63771;20098;0];
[63772;21365;0];
[63773;27396;0];
[63774;29211;0];
[63775;34349;0];
[63776;40478;0];
[63777;23888;0];
[63778;28651;0];
[63779;34253;0];
[63780;35172;0];
[63781;25289;0];
[63782;33240;0];
[63783;34847;0];
[63784;24266;0];
[63785;26391;0];
[63786;28010;0];
[63787;29436;0];
[63788;37070;0];
[63789;20358;0];
[63790;20919;0];
[63791;21214;0];
[63792;25796;0];
[63793;27347;0];
[63794;29200;0];
[63795;30439;0];
[63796;32769;0];
[63797;34310;0];
[63798;34396;0];
[63799;36335;0];
[63800;38706;0];
[63801;39791;0];
[63802;40442;0];
[63803;30860;0];
[63804;31103;0];
[63805;32160;0];
[63806;33737;0];
[63807;37636;0];
[63808;40575;0];
[63809;35542;0];
[63810;22751;0];
[63811;24324;0];
[63812;31840;0];
[63813;32894;0];
[63814;29282;0];
[63815;30922;0];
[63816;36034;0];
[63817;38647;0];
[63818;22744;0];
[63819;23650;0];
[63820;27155;0];
[63821;28122;0];
[63822;28431;0];
[63823;32047;0];
[63824;32311;0];
[63825;38475;0];
[63826;21202;0];
[63827;32907;0];
[63828;20956;0];
[63829;20940;0];
[63830;31260;0];
[63831;32190;0];
[63832;33777;0];
[63833;38517;0];
[63834;35712;0];
[63835;25295;0];
[63836;27138;0];
[63837;35582;0];
[63838;20025;0];
[63839;23527;0];
[63840;24594;0];
[63841;29575;0];
[63842;30064;0];
[63843;21271;0];
[63844;30971;0];
[63845;20415;0];
[63846;24489;0];
[63847;19981;0];
[63848;27852;0];
[63849;25976;0];
[63850;32034;0];
[63851;21443;0];
[63852;22622;0];
[63853;30465;0];
[63854;33865;0];
[63855;35498;0];
[63856;27578;0];
[63857;36784;0];
[63858;27784;0];
[63859;25342;0];
[63860;33509;0];
[63861;25504;0];
[63862;30053;0];
[63863;20142;0];
[63864;20841;0];
[63865;20937;0];
[63866;26753;0];
[63867;31975;0];
[63868;33391;0];
[63869;35538;0];
[63870;37327;0];
[63871;21237;0];
[63872;21570;0];
[63873;22899;0];
[63874;24300;0];
[63875;26053;0];
[63876;28670;0];
[63877;31018;0];
[63878;38317;0];
[63879;39530;0];
[63880;40599;0];
[63881;40654;0];
[63882;21147;0];
[63883;26310;0];
[63884;27511;0];
[63885;36706;0];
[63886;24180;0];
[63887;24976;0];
[63888;25088;0];
[63889;25754;0];
[63890;28451;0];
[63891;29001;0];
[63892;29833;0];
[63893;31178;0];
[63894;32244;0];
[63895;32879;0];
[63896;36646;0];
[63897;34030;0];
[63898;36899;0];
[63899;37706;0];
[63900;21015;0];
[63901;21155;0];
[63902;21693;0];
[63903;28872;0];
[63904;35010;0];
[63905;35498;0];
[63906;24265;0];
[63907;24565;0];
[63908;25467;0];
[63909;27566;0];
[63910;31806;0];
[63911;29557;0];
[63912;20196;0];
[63913;22265;0];
[63914;23527;0];
[63915;23994;0];
[63916;24604;0];
[63917;29618;0];
[63918;29801;0];
[63919;32666;0];
[63920;32838;0];
[63921;37428;0];
[63922;38646;0];
[63923;38728;0];
[63924;38936;0];
[63925;20363;0];
[63926;31150;0];
[63927;37300;0];
[63928;38584;0];
[63929;24801;0];
[63930;20102;0];
[63931;20698;0];
[63932;23534;0];
[63933;23615;0];
[63934;26009;0];
[63935;27138;0];
[63936;29134;0];
[63937;30274;0];
[63938;34044;0];
[63939;36988;0];
[63940;40845;0];
[63941;26248;0];
[63942;38446;0];
[63943;21129;0];
[63944;26491;0];
[63945;26611;0];
[63946;27969;0];
[63947;28316;0];
[63948;29705;0];
[63949;30041;0];
[63950;30827;0];
[63951;32016;0];
[63952;39006;0];
[63953;20845;0];
[63954;25134;0];
[63955;38520;0];
[63956;20523;0];
[63957;23833;0];
[63958;28138;0];
[63959;36650;0];
[63960;24459;0];
[63961;24900;0];
[63962;26647;0];
[63963;29575;0];
[63964;38534;0];
[63965;21033;0];
[63966;21519;0];
[63967;23653;0];
[63968;26131;0];
[63969;26446;0];
[63970;26792;0];
[63971;27877;0];
[63972;29702;0];
[63973;30178;0];
[63974;32633;0];
[63975;35023;0];
[63976;35041;0];
[63977;37324;0];
[63978;38626;0];
[63979;21311;0];
[63980;28346;0];
[63981;21533;0];
[63982;29136;0];
[63983;29848;0];
[63984;34298;0];
[63985;38563;0];
[63986;40023;0];
[63987;40607;0];
[63988;26519;0];
[63989;28107;0];
[63990;33256;0];
[63991;31435;0];
[63992;31520;0];
[63993;31890;0];
[63994;29376;0];
[63995;28825;0];
[63996;35672;0];
[63997;20160;0];
[63998;33590;0];
[63999;21050;0];
[64000;20999;0];
[64001;24230;0];
[64002;25299;0];
[64003;31958;0];
[64004;23429;0];
[64005;27934;0];
[64006;26292;0];
[64007;36667;0];
[64008;34892;0];
[64009;38477;0];
[64010;35211;0];
[64011;24275;0];
[64012;20800;0];
[64013;21952;0];
[64016;22618;0];
[64018;26228;0];
[64021;20958;0];
[64022;29482;0];
[64023;30410;0];
[64024;31036;0];
[64025;31070;0];
[64026;31077;0];
[64027;31119;0];
[64028;38742;0];
[64029;31934;0];
[64030;32701;0];
[64032;34322;0];
[64034;35576;0];
[64037;36920;0];
[64038;37117;0];
[64042;39151;0];
[64043;39164;0];
[64044;39208;0];
[64045;40372;0];
[64046;37086;0];
[64047;38583;0];
[64048;20398;0];
[64049;20711;0];
[64050;20813;0];
[64051;21193;0];
[64052;21220;0];
[64053;21329;0];
[64054;21917;0];
[64055;22022;0];
[64056;22120;0];
[64057;22592;0];
[64058;22696;0];
[64059;23652;0];
[64060;23662;0];
[64061;24724;0];
[64062;24936;0];
[64063;24974;0];
[64064;25074;0];
[64065;25935;0];
[64066;26082;0];
[64067;26257;0];
[64068;26757;0];
[64069;28023;0];
[64070;28186;0];
[64071;28450;0];
[64072;29038;0];
[64073;29227;0];
[64074;29730;0];
[64075;30865;0];
[64076;31038;0];
[64077;31049;0];
[64078;31048;0];
[64079;31056;0];
[64080;31062;0];
[64081;31069;0];
[64082;31117;0];
[64083;31118;0];
[64084;31296;0];
[64085;31361;0];
[64086;31680;0];
[64087;32244;0];
[64088;32265;0];
[64089;32321;0];
[64090;32626;0];
[64091;32773;0];
[64092;33261;0];
[64093;33401;0];
[64094;33401;0];
[64095;33879;0];
[64096;35088;0];
[64097;35222;0];
[64098;35585;0];
[64099;35641;0];
[64100;36051;0];
[64101;36104;0];
[64102;36790;0];
[64103;36920;0];
[64104;38627;0];
[64105;38911;0];
[64106;38971;0];
[64107;24693;0];
[64108;148206;0];
[64109;33304;0];
[64112;20006;0];
[64113;20917;0];
[64114;20840;0];
[64115;20352;0];
[64116;20805;0];
[64117;20864;0];
[64118;21191;0];
[64119;21242;0];
[64120;21917;0];
[64121;21845;0];
[64122;21913;0];
[64123;21986;0];
[64124;22618;0];
[64125;22707;0];
[64126;22852;0];
[64127;22868;0];
[64128;23138;0];
[64129;23336;0];
[64130;24274;0];
[64131;24281;0];
[64132;24425;0];
[64133;24493;0];
[64134;24792;0];
[64135;24910;0];
[64136;24840;0];
[64137;24974;0];
[64138;24928;0];
[64139;25074;0];
[64140;25140;0];
[64141;25540;0];
[64142;25628;0];
[64143;25682;0];
[64144;25942;0];
[64145;26228;0];
[64146;26391;0];
[64147;26395;0];
[64148;26454;0];
[64149;27513;0];
[64150;27578;0];
[64151;27969;0];
[64152;28379;0];
[64153;28363;0];
[64154;28450;0];
[64155;28702;0];
[64156;29038;0];
[64157;30631;0];
[64158;29237;0];
[64159;29359;0];
[64160;29482;0];
[64161;29809;0];
[64162;29958;0];
[64163;30011;0];
[64164;30237;0];
[64165;30239;0];
[64166;30410;0];
[64167;30427;0];
[64168;30452;0];
[64169;30538;0];
[64170;30528;0];
[64171;30924;0];
[64172;31409;0];
[64173;31680;0];
[64174;31867;0];
[64175;32091;0];
[64176;32244;0];
[64177;32574;0];
[64178;32773;0];
[64179;33618;0];
[64180;33775;0];
[64181;34681;0];
[64182;35137;0];
[64183;35206;0];
[64184;35222;0];
[64185;35519;0];
[64186;35576;0];
[64187;35531;0];
[64188;35585;0];
[64189;35582;0];
[64190;35565;0];
[64191;35641;0];
[64192;35722;0];
[64193;36104;0];
[64194;36664;0];
[64195;36978;0];
[64196;37273;0];
[64197;37494;0];
[64198;38524;0];
[64199;38627;0];
[64200;38742;0];
[64201;38875;0];
[64202;38911;0];
[64203;38923;0];
[64204;38971;0];
[64205;39698;0];
[64206;40860;0];
[64207;141386;0];
[64208;141380;0];
[64209;144341;0];
[64210;15261;0];
[64211;16408;0];
[64212;16441;0];
[64213;152137;0];
[64214;154832;0];
[64215;163539;0];
[64216;40771;0];
[64217;40846;0];
[64256;102;102;0];
[64257;102;105;0];
[64258;102;108;0];
[64259;102;102;105;0];
[64260;102;102;108;0];
[64261;115;116;0];
[64262;115;116;0];
[64275;1396;1398;0];
[64276;1396;1381;0];
[64277;1396;1387;0];
[64278;1406;1398;0];
[64279;1396;1389;0];
[64285;1497;1460;0];
[64287;1522;1463;0];
[64298;1513;1473;0];
[64299;1513;1474;0];
[64300;1513;1468;1473;0];
[64301;1513;1468;1474;0];
[64302;1488;1463;0];
[64303;1488;1464;0];
[64304;1488;1468;0];
[64305;1489;1468;0];
[64306;1490;1468;0];
[64307;1491;1468;0];
[64308;1492;1468;0];
[64309;1493;1468;0];
[64310;1494;1468;0];
[64312;1496;1468;0];
[64313;1497;1468;0];
[64314;1498;1468;0];
[64315;1499;1468;0];
[64316;1500;1468;0];
[64318;1502;1468;0];
[64320;1504;1468;0];
[64321;1505;1468;0];
[64323;1507;1468;0];
[64324;1508;1468;0];
[64326;1510;1468;0];
[64327;1511;1468;0];
[64328;1512;1468;0];
[64329;1513;1468;0];
[64330;1514;1468;0];
[64331;1493;1465;0];
[64332;1489;1471;0];
[64333;1499;1471;0];
[64334;1508;1471;0];
[64335;1488;1500;0];
[65097;32;773;0];
[65098;32;773;0];
[65099;32;773;0];
[65100;32;773;0];
[65101;95;0];
[65102;95;0];
[65103;95;0];
[69786;69785;69818;0];
[69788;69787;69818;0];
[69803;69797;69818;0];
[69934;69937;69927;0];
[69935;69938;69927;0];
[70475;70471;70462;0];
[70476;70471;70487;0];
[70843;70841;70842;0];
[70844;70841;70832;0];
[70846;70841;70845;0];
[71098;71096;71087;0];
[71099;71097;71087;0];
[119134;119127;119141;0];
[119135;119128;119141;0];
[119136;119128;119141;119150;0];
[119137;119128;119141;119151;0];
[119138;119128;119141;119152;0];
[119139;119128;119141;119153;0];
[119140;119128;119141;119154;0];
[119227;119225;119141;0];
[119228;119226;119141;0];
[119229;119225;119141;119150;0];
[119230;119226;119141;119150;0];
[119231;119225;119141;119151;0];
[119232;119226;119141;119151;0];
[127232;48;46;0];
[127233;48;44;0];
[127234;49;44;0];
[127235;50;44;0];
[127236;51;44;0];
[127237;52;44;0];
[127238;53;44;0];
[127239;54;44;0];
[127240;55;44;0];
[127241;56;44;0];
[127242;57;44;0];
[127248;40;65;41;0];
[127249;40;66;41;0];
[127250;40;67;41;0];
[127251;40;68;41;0];
[127252;40;69;41;0];
[127253;40;70;41;0];
[127254;40;71;41;0];
[127255;40;72;41;0];
[127256;40;73;41;0];
[127257;40;74;41;0];
[127258;40;75;41;0];
[127259;40;76;41;0];
[127260;40;77;41;0];
[127261;40;78;41;0];
[127262;40;79;41;0];
[127263;40;80;41;0];
[127264;40;81;41;0];
[127265;40;82;41;0];
[127266;40;83;41;0];
[127267;40;84;41;0];
[127268;40;85;41;0];
[127269;40;86;41;0];
[127270;40;87;41;0];
[127271;40;88;41;0];
[127272;40;89;41;0];
[127273;40;90;41;0];
[127274;12308;83;12309;0];
[127552;12308;26412;12309;0];
[127553;12308;19977;12309;0];
[127554;12308;20108;12309;0];
[127555;12308;23433;12309;0];
[127556;12308;28857;12309;0];
[127557;12308;25171;12309;0];
[127558;12308;30423;12309;0];
[127559;12308;21213;12309;0];
[127560;12308;25943;12309;0];
[194560;20029;0];
[194561;20024;0];
[194562;20033;0];
[194563;131362;0];
[194564;20320;0];
[194565;20398;0];
[194566;20411;0];
[194567;20482;0];
[194568;20602;0];
[194569;20633;0];
[194570;20711;0];
[194571;20687;0];
[194572;13470;0];
[194573;132666;0];
[194574;20813;0];
[194575;20820;0];
[194576;20836;0];
[194577;20855;0];
[194578;132380;0];
[194579;13497;0];
[194580;20839;0];
[194581;20877;0];
[194582;132427;0];
[194583;20887;0];
[194584;20900;0];
[194585;20172;0];
[194586;20908;0];
[194587;20917;0];
[194588;168415;0];
[194589;20981;0];
[194590;20995;0];
[194591;13535;0];
[194592;21051;0];
[194593;21062;0];
[194594;21106;0];
[194595;21111;0];
[194596;13589;0];
[194597;21191;0];
[194598;21193;0];
[194599;21220;0];
[194600;21242;0];
[194601;21253;0];
[194602;21254;0];
[194603;21271;0];
[194604;21321;0];
[194605;21329;0];
[194606;21338;0];
[194607;21363;0];
[194608;21373;0];
[194609;21375;0];
[194610;21375;0];
[194611;21375;0];
[194612;133676;0];
[194613;28784;0];
[194614;21450;0];
[194615;21471;0];
[194616;133987;0];
[194617;21483;0];
[194618;21489;0];
[194619;21510;0];
[194620;21662;0];
[194621;21560;0];
[194622;21576;0];
[194623;21608;0];
[194624;21666;0];
[194625;21750;0];
[194626;21776;0];
[194627;21843;0];
[194628;21859;0];
[194629;21892;0];
[194630;21892;0];
[194631;21913;0];
[194632;21931;0];
[194633;21939;0];
[194634;21954;0];
[194635;22294;0];
[194636;22022;0];
[194637;22295;0];
[194638;22097;0];
[194639;22132;0];
[194640;20999;0];
[194641;22766;0];
[194642;22478;0];
[194643;22516;0];
[194644;22541;0];
[194645;22411;0];
[194646;22578;0];
[194647;22577;0];
[194648;22700;0];
[194649;136420;0];
[194650;22770;0];
[194651;22775;0];
[194652;22790;0];
[194653;22810;0];
[194654;22818;0];
[194655;22882;0];
[194656;136872;0];
[194657;136938;0];
[194658;23020;0];
[194659;23067;0];
[194660;23079;0];
[194661;23000;0];
[194662;23142;0];
[194663;14062;0];
[194664;14076;0];
[194665;23304;0];
[194666;23358;0];
[194667;23358;0];
[194668;137672;0];
[194669;23491;0];
[194670;23512;0];
[194671;23527;0];
[194672;23539;0];
[194673;138008;0];
[194674;23551;0];
[194675;23558;0];
[194676;24403;0];
[194677;23586;0];
[194678;14209;0];
[194679;23648;0];
[194680;23662;0];
[194681;23744;0];
[194682;23693;0];
[194683;138724;0];
[194684;23875;0];
[194685;138726;0];
[194686;23918;0];
[194687;23915;0];
[194688;23932;0];
[194689;24033;0];
[194690;24034;0];
[194691;14383;0];
[194692;24061;0];
[194693;24104;0];
[194694;24125;0];
[194695;24169;0];
[194696;14434;0];
[194697;139651;0];
[194698;14460;0];
[194699;24240;0];
[194700;24243;0];
[194701;24246;0];
[194702;24266;0];
[194703;172946;0];
[194704;24318;0];
[194705;140081;0];
[194706;140081;0];
[194707;33281;0];
[194708;24354;0];
[194709;24354;0];
[194710;14535;0];
[194711;144056;0];
[194712;156122;0];
[194713;24418;0];
[194714;24427;0];
[194715;14563;0];
[194716;24474;0];
[194717;24525;0];
[194718;24535;0];
[194719;24569;0];
[194720;24705;0];
[194721;14650;0];
[194722;14620;0];
[194723;24724;0];
[194724;141012;0];
[194725;24775;0];
[194726;24904;0];
[194727;24908;0];
[194728;24910;0];
[194729;24908;0];
[194730;24954;0];
[194731;24974;0];
[194732;25010;0];
[194733;24996;0];
[194734;25007;0];
[194735;25054;0];
[194736;25074;0];
[194737;25078;0];
[194738;25104;0];
[194739;25115;0];
[194740;25181;0];
[194741;25265;0];
[194742;25300;0];
[194743;25424;0];
[194744;142092;0];
[194745;25405;0];
[194746;25340;0];
[194747;25448;0];
[194748;25475;0];
[194749;25572;0];
[194750;142321;0];
[194751;25634;0];
[194752;25541;0];
[194753;25513;0];
[194754;14894;0];
[194755;25705;0];
[194756;25726;0];
[194757;25757;0];
[194758;25719;0];
[194759;14956;0];
[194760;25935;0];
[194761;25964;0];
[194762;143370;0];
[194763;26083;0];
[194764;26360;0];
[194765;26185;0];
[194766;15129;0];
[194767;26257;0];
[194768;15112;0];
[194769;15076;0];
[194770;20882;0];
[194771;20885;0];
[194772;26368;0];
[194773;26268;0];
[194774;32941;0];
[194775;17369;0];
[194776;26391;0];
[194777;26395;0];
[194778;26401;0];
[194779;26462;0];
[194780;26451;0];
[194781;144323;0];
[194782;15177;0];
[194783;26618;0];
[194784;26501;0];
[194785;26706;0];
[194786;26757;0];
[194787;144493;0];
[194788;26766;0];
[194789;26655;0];
[194790;26900;0];
[194791;15261;0];
[194792;26946;0];
[194793;27043;0];
[194794;27114;0];
[194795;27304;0];
[194796;145059;0];
[194797;27355;0];
[194798;15384;0];
[194799;27425;0];
[194800;145575;0];
[194801;27476;0];
[194802;15438;0];
[194803;27506;0];
[194804;27551;0];
[194805;27578;0];
[194806;27579;0];
[194807;146061;0];
[194808;138507;0];
[194809;146170;0];
[194810;27726;0];
[194811;146620;0];
[194812;27839;0];
[194813;27853;0];
[194814;27751;0];
[194815;27926;0];
[194816;27966;0];
[194817;28023;0];
[194818;27969;0];
[194819;28009;0];
[194820;28024;0];
[194821;28037;0];
[194822;146718;0];
[194823;27956;0];
[194824;28207;0];
[194825;28270;0];
[194826;15667;0];
[194827;28363;0];
[194828;28359;0];
[194829;147153;0];
[194830;28153;0];
[194831;28526;0];
[194832;147294;0];
[194833;147342;0];
[194834;28614;0];
[194835;28729;0];
[194836;28702;0];
[194837;28699;0];
[194838;15766;0];
[194839;28746;0];
[194840;28797;0];
[194841;28791;0];
[194842;28845;0];
[194843;132389;0];
[194844;28997;0];
[194845;148067;0];
[194846;29084;0];
[194847;148395;0];
[194848;29224;0];
[194849;29237;0];
[194850;29264;0];
[194851;149000;0];
[194852;29312;0];
[194853;29333;0];
[194854;149301;0];
[194855;149524;0];
[194856;29562;0];
[194857;29579;0];
[194858;16044;0];
[194859;29605;0];
[194860;16056;0];
[194861;16056;0];
[194862;29767;0];
[194863;29788;0];
[194864;29809;0];
[194865;29829;0];
[194866;29898;0];
[194867;16155;0];
[194868;29988;0];
[194869;150582;0];
[194870;30014;0];
[194871;150674;0];
[194872;30064;0];
[194873;139679;0];
[194874;30224;0];
[194875;151457;0];
[194876;151480;0];
[194877;151620;0];
[194878;16380;0];
[194879;16392;0];
[194880;30452;0];
[194881;151795;0];
[194882;151794;0];
[194883;151833;0];
[194884;151859;0];
[194885;30494;0];
[194886;30495;0];
[194887;30495;0];
[194888;30538;0];
[194889;16441;0];
[194890;30603;0];
[194891;16454;0];
[194892;16534;0];
[194893;152605;0];
[194894;30798;0];
[194895;30860;0];
[194896;30924;0];
[194897;16611;0];
[194898;153126;0];
[194899;31062;0];
[194900;153242;0];
[194901;153285;0];
[194902;31119;0];
[194903;31211;0];
[194904;16687;0];
[194905;31296;0];
[194906;31306;0];
[194907;31311;0];
[194908;153980;0];
[194909;154279;0];
[194910;154279;0];
[194911;31470;0];
[194912;16898;0];
[194913;154539;0];
[194914;31686;0];
[194915;31689;0];
[194916;16935;0];
[194917;154752;0];
[194918;31954;0];
[194919;17056;0];
[194920;31976;0];
[194921;31971;0];
[194922;32000;0];
[194923;155526;0];
[194924;32099;0];
[194925;17153;0];
[194926;32199;0];
[194927;32258;0];
[194928;32325;0];
[194929;17204;0];
[194930;156200;0];
[194931;156231;0];
[194932;17241;0];
[194933;156377;0];
[194934;32634;0];
[194935;156478;0];
[194936;32661;0];
[194937;32762;0];
[194938;32773;0];
[194939;156890;0];
[194940;156963;0];
[194941;32864;0];
[194942;157096;0];
[194943;32880;0];
[194944;144223;0];
[194945;17365;0];
[194946;32946;0];
[194947;33027;0];
[194948;17419;0];
[194949;33086;0];
[194950;23221;0];
[194951;157607;0];
[194952;157621;0];
[194953;144275;0];
[194954;144284;0];
[194955;33281;0];
[194956;33284;0];
[194957;36766;0];
[194958;17515;0];
[194959;33425;0];
[194960;33419;0];
[194961;33437;0];
[194962;21171;0];
[194963;33457;0];
[194964;33459;0];
[194965;33469;0];
[194966;33510;0];
[194967;158524;0];
[194968;33509;0];
[194969;33565;0];
[194970;33635;0];
[194971;33709;0];
[194972;33571;0];
[194973;33725;0];
[194974;33767;0];
[194975;33879;0];
[194976;33619;0];
[194977;33738;0];
[194978;33740;0];
[194979;33756;0];
[194980;158774;0];
[194981;159083;0];
[194982;158933;0];
[194983;17707;0];
[194984;34033;0];
[194985;34035;0];
[194986;34070;0];
[194987;160714;0];
[194988;34148;0];
[194989;159532;0];
[194990;17757;0];
[194991;17761;0];
[194992;159665;0];
[194993;159954;0];
[194994;17771;0];
[194995;34384;0];
[194996;34396;0];
[194997;34407;0];
[194998;34409;0];
[194999;34473;0];
[195000;34440;0];
[195001;34574;0];
[195002;34530;0];
[195003;34681;0];
[195004;34600;0];
[195005;34667;0];
[195006;34694;0];
[195007;17879;0];
[195008;34785;0];
[195009;34817;0];
[195010;17913;0];
[195011;34912;0];
[195012;34915;0];
[195013;161383;0];
[195014;35031;0];
[195015;35038;0];
[195016;17973;0];
[195017;35066;0];
[195018;13499;0];
[195019;161966;0];
[195020;162150;0];
[195021;18110;0];
[195022;18119;0];
[195023;35488;0];
[195024;35565;0];
[195025;35722;0];
[195026;35925;0];
[195027;162984;0];
[195028;36011;0];
[195029;36033;0];
[195030;36123;0];
[195031;36215;0];
[195032;163631;0];
[195033;133124;0];
[195034;36299;0];
[195035;36284;0];
[195036;36336;0];
[195037;133342;0];
[195038;36564;0];
[195039;36664;0];
[195040;165330;0];
[195041;165357;0];
[195042;37012;0];
[195043;37105;0];
[195044;37137;0];
[195045;165678;0];
[195046;37147;0];
[195047;37432;0];
[195048;37591;0];
[195049;37592;0];
[195050;37500;0];
[195051;37881;0];
[195052;37909;0];
[195053;166906;0];
[195054;38283;0];
[195055;18837;0];
[195056;38327;0];
[195057;167287;0];
[195058;18918;0];
[195059;38595;0];
[195060;23986;0];
[195061;38691;0];
[195062;168261;0];
[195063;168474;0];
[195064;19054;0];
[195065;19062;0];
[195066;38880;0];
[195067;168970;0];
[195068;19122;0];
[195069;169110;0];
[195070;38923;0];
[195071;38923;0];
[195072;38953;0];
[195073;169398;0];
[195074;39138;0];
[195075;19251;0];
[195076;39209;0];
[195077;39335;0];
[195078;39362;0];
[195079;39422;0];
[195080;19406;0];
[195081;170800;0];
[195082;39698;0];
[195083;40000;0];
[195084;40189;0];
[195085;19662;0];
[195086;19693;0];
[195087;40295;0];
[195088;172238;0];
[195089;19704;0];
[195090;172293;0];
[195091;172558;0];
[195092;172689;0];
[195093;40635;0];
[195094;19798;0];
[195095;40697;0];
[195096;40702;0];
[195097;40709;0];
[195098;40719;0];
[195099;40726;0];
[195100;40763;0];
[195101;173568;0]
].

(** src/u5e/props/canonical_composition_mapping_data.hpp, 940 rows *)
Definition canonical_composition_mapping_data : list (list Z) := [
[60;824;8814];
[61;824;8800];
[62;824;8815];
[65;768;192];
[65;769;193];
[65;770;194];
[65;771;195];
[65;772;256];
[65;774;258];
[65;775;550];
[65;776;196];
[65;777;7842];
[65;778;197];
[65;780;461];
[65;783;512];
[65;785;514];
[65;803;7840];
[65;805;7680];
[65;808;260];
[66;775;7682];
[66;803;7684];
[66;817;7686];
[67;769;262];
[67;770;264];
[67;775;266];
[67;780;268];
[67;807;199];
[68;775;7690];
[68;780;270];
[68;803;7692];
[68;807;7696];
[68;813;7698];
[68;817;7694];
[69;768;200];
[69;769;201];
[69;770;202];
[69;771;7868];
[69;772;274];
[69;774;276];
[69;775;278];
[69;776;203];
[69;777;7866];
[69;780;282];
[69;783;516];
[69;785;518];
[69;803;7864];
[69;807;552];
[69;808;280];
[69;813;7704];
[69;816;7706];
[70;775;7710];
[71;769;500];
[71;770;284];
[71;772;7712];
[71;774;286];
[71;775;288];
[71;780;486];
[71;807;290];
[72;770;292];
[72;775;7714];
[72;776;7718];
[72;780;542];
[72;803;7716];
[72;807;7720];
[72;814;7722];
[73;768;204];
[73;769;205];
[73;770;206];
[73;771;296];
[73;772;298];
[73;774;300];
[73;775;304];
[73;776;207];
[73;777;7880];
[73;780;463];
[73;783;520];
[73;785;522];
[73;803;7882];
[73;808;302];
[73;816;7724];
[74;770;308];
[75;769;7728];
[75;780;488];
[75;803;7730];
[75;807;310];
[75;817;7732];
[76;769;313];
[76;780;317];
[76;803;7734];
[76;807;315];
[76;813;7740];
[76;817;7738];
[77;769;7742];
[77;775;7744];
[77;803;7746];
[78;768;504];
[78;769;323];
[78;771;209];
[78;775;7748];
[78;780;327];
[78;803;7750];
[78;807;325];
[78;813;7754];
[78;817;7752];
[79;768;210];
[79;769;211];
[79;770;212];
[79;771;213];
[79;772;332];
[79;774;334];
[79;775;558];
[79;776;214];
[79;777;7886];
[79;779;336];
[79;780;465];
[79;783;524];
[79;785;526];
[79;795;416];
[79;803;7884];
[79;808;490];
[80;769;7764];
[80;775;7766];
[82;769;340];
[82;775;7768];
[82;780;344];
[82;783;528];
[82;785;530];
[82;803;7770];
[82;807;342];
[82;817;7774];
[83;769;346];
[83;770;348];
[83;775;7776];
[83;780;352];
[83;803;7778];
[83;806;536];
[83;807;350];
[84;775;7786];
[84;780;356];
[84;803;7788];
[84;806;538];
[84;807;354];
[84;813;7792];
[84;817;7790];
[85;768;217];
[85;769;218];
[85;770;219];
[85;771;360];
[85;772;362];
[85;774;364];
[85;776;220];
[85;777;7910];
[85;778;366];
[85;779;368];
[85;780;467];
[85;783;532];
[85;785;534];
[85;795;431];
[85;803;7908];
[85;804;7794];
[85;808;370];
[85;813;7798];
[85;816;7796];
[86;771;7804];
[86;803;7806];
[87;768;7808];
[87;769;7810];
[87;770;372];
[87;775;7814];
[87;776;7812];
[87;803;7816];
[88;775;7818];
[88;776;7820];
[89;768;7922];
[89;769;221];
[89;770;374];
[89;771;7928];
[89;772;562];
[89;775;7822];
[89;776;376];
[89;777;7926];
[89;803;7924];
[90;769;377];
[90;770;7824];
[90;775;379];
[90;780;381];
[90;803;7826];
[90;817;7828];
[97;768;224];
[97;769;225];
[97;770;226];
[97;771;227];
[97;772;257];
[97;774;259];
[97;775;551];
[97;776;228];
[97;777;7843];
[97;778;229];
[97;780;462];
[97;783;513];
[97;785;515];
[97;803;7841];
[97;805;7681];
[97;808;261];
[98;775;7683];
[98;803;7685];
[98;817;7687];
[99;769;263];
[99;770;265];
[99;775;267];
[99;780;269];
[99;807;231];
[100;775;7691];
[100;780;271];
[100;803;7693];
[100;807;7697];
[100;813;7699];
[100;817;7695];
[101;768;232];
[101;769;233];
[101;770;234];
[101;771;7869];
[101;772;275];
[101;774;277];
[101;775;279];
[101;776;235];
[101;777;7867];
[101;780;283];
[101;783;517];
[101;785;519];
[101;803;7865];
[101;807;553];
[101;808;281];
[101;813;7705];
[101;816;7707];
[102;775;7711];
[103;769;501];
[103;770;285];
[103;772;7713];
[103;774;287];
[103;775;289];
[103;780;487];
[103;807;291];
[104;770;293];
[104;775;7715];
[104;776;7719];
[104;780;543];
[104;803;7717];
[104;807;7721];
[104;814;7723];
[104;817;7830];
[105;768;236];
[105;769;237];
[105;770;238];
[105;771;297];
[105;772;299];
[105;774;301];
[105;776;239];
[105;777;7881];
[105;780;464];
[105;783;521];
[105;785;523];
[105;803;7883];
[105;808;303];
[105;816;7725];
[106;770;309];
[106;780;496];
[107;769;7729];
[107;780;489];
[107;803;7731];
[107;807;311];
[107;817;7733];
[108;769;314];
[108;780;318];
[108;803;7735];
[108;807;316];
[108;813;7741];
[108;817;7739];
[109;769;7743];
[109;775;7745];
[109;803;7747];
[110;768;505];
[110;769;324];
[110;771;241];
[110;775;7749];
[110;780;328];
[110;803;7751];
[110;807;326];
[110;813;7755];
[110;817;7753];
[111;768;242];
[111;769;243];
[111;770;244];
[111;771;245];
[111;772;333];
[111;774;335];
[111;775;559];
[111;776;246];
[111;777;7887];
[111;779;337];
[111;780;466];
[111;783;525];
[111;785;527];
[111;795;417];
[111;803;7885];
[111;808;491];
[112;769;7765];
[112;775;7767];
[114;769;341];
[114;775;7769];
[114;780;345];
[114;783;529];
[114;785;531];
[114;803;7771];
[114;807;343];
[114;817;7775];
[115;769;347];
[115;770;349];
[115;775;7777];
[115;780;353];
[115;803;7779];
[115;806;537];
[115;807;351];
[116;775;7787];
[116;776;7831];
[116;780;357];
[116;803;7789];
[116;806;539];
[116;807;355];
[116;813;7793];
[116;817;7791];
[117;768;249];
[117;769;250];
[117;770;251];
[117;771;361];
[117;772;363];
[117;774;365];
[117;776;252];
[117;777;7911];
[117;778;367];
[117;779;369];
[117;780;468];
[117;783;533];
[117;785;535];
[117;795;432];
[117;803;7909];
[117;804;7795];
[117;808;371];
[117;813;7799];
[117;816;7797];
[118;771;7805];
[118;803;7807];
[119;768;7809];
[119;769;7811];
[119;770;373];
[119;775;7815];
[119;776;7813];
[119;778;7832];
[119;803;7817];
[120;775;7819];
[120;776;7821];
[121;768;7923];
[121;769;253];
[121;770;375];
[121;771;7929];
[121;772;563];
[121;775;7823];
[121;776;255];
[121;777;7927];
[121;778;7833];
[121;803;7925];
[122;769;378];
[122;770;7825];
[122;775;380];
[122;780;382];
[122;803;7827];
[122;817;7829];
[168;768;8173];
[168;769;901];
[168;834;8129];
[194;768;7846];
[194;769;7844];
[194;771;7850];
[194;777;7848];
[196;772;478];
[197;769;506];
[198;769;508];
[198;772;482];
[199;769;7688];
[202;768;7872];
[202;769;7870];
[202;771;7876];
[202;777;7874];
[207;769;7726];
[212;768;7890];
[212;769;7888];
[212;771;7894];
[212;777;7892];
[213;769;7756];
[213;772;556];
[213;776;7758];
[214;772;554];
[216;769;510];
[220;768;475];
[220;769;471];
[220;772;469];
[220;780;473];
[226;768;7847];
[226;769;7845];
[226;771;7851];
[226;777;7849];
[228;772;479];
[229;769;507];
[230;769;509];
[230;772;483];
[231;769;7689];
[234;768;7873];
[234;769;7871];
[234;771;7877];
[234;777;7875];
[239;769;7727];
[244;768;7891];
[244;769;7889];
[244;771;7895];
[244;777;7893];
[245;769;7757];
[245;772;557];
[245;776;7759];
[246;772;555];
[248;769;511];
[252;768;476];
[252;769;472];
[252;772;470];
[252;780;474];
[258;768;7856];
[258;769;7854];
[258;771;7860];
[258;777;7858];
[259;768;7857];
[259;769;7855];
[259;771;7861];
[259;777;7859];
[274;768;7700];
[274;769;7702];
[275;768;7701];
[275;769;7703];
[332;768;7760];
[332;769;7762];
[333;768;7761];
[333;769;7763];
[346;775;7780];
[347;775;7781];
[352;775;7782];
[353;775;7783];
[360;769;7800];
[361;769;7801];
[362;776;7802];
[363;776;7803];
[383;775;7835];
[416;768;7900];
[416;769;7898];
[416;771;7904];
[416;777;7902];
[416;803;7906];
[417;768;7901];
[417;769;7899];
[417;771;7905];
[417;777;7903];
[417;803;7907];
[431;768;7914];
[431;769;7912];
[431;771;7918];
[431;777;7916];
[431;803;7920];
[432;768;7915];
[432;769;7913];
[432;771;7919];
[432;777;7917];
[432;803;7921];
[439;780;494];
[490;772;492];
[491;772;493];
[550;772;480];
[551;772;481];
[552;774;7708];
[553;774;7709];
[558;772;560];
[559;772;561];
[658;780;495];
[913;768;8122];
[913;769;902];
[913;772;8121];
[913;774;8120];
[913;787;7944];
[913;788;7945];
[913;837;8124];
[917;768;8136];
[917;769;904];
[917;787;7960];
[917;788;7961];
[919;768;8138];
[919;769;905];
[919;787;7976];
[919;788;7977];
[919;837;8140];
[921;768;8154];
[921;769;906];
[921;772;8153];
[921;774;8152];
[921;776;938];
[921;787;7992];
[921;788;7993];
[927;768;8184];
[927;769;908];
[927;787;8008];
[927;788;8009];
[929;788;8172];
[933;768;8170];
[933;769;910];
[933;772;8169];
[933;774;8168];
[933;776;939];
[933;788;8025];
[937;768;8186];
[937;769;911];
[937;787;8040];
[937;788;8041];
[937;837;8188];
[940;837;8116];
[942;837;8132];
[945;768;8048];
[945;769;940];
[945;772;8113];
[945;774;8112];
[945;787;7936];
[945;788;7937];
[945;834;8118];
[945;837;8115];
[949;768;8050];
[949;769;941];
[949;787;7952];
[949;788;7953];
[951;768;8052];
[951;769;942];
[951;787;7968];
[951;788;7969];
[951;834;8134];
[951;837;8131];
[953;768;8054];
[953;769;943];
[953;772;8145];
[953;774;8144];
[953;776;970];
[953;787;7984];
[953;788;7985];
[953;834;8150];
[959;768;8056];
[959;769;972];
[959;787;8000];
[959;788;8001];
[961;787;8164];
[961;788;8165];
[965;768;8058];
[965;769;973];
[965;772;8161];
[965;774;8160];
[965;776;971];
[965;787;8016];
[965;788;8017];
[965;834;8166];
[969;768;8060];
[969;769;974];
[969;787;8032];
[969;788;8033];
[969;834;8182];
[969;837;8179];
[970;768;8146];
[970;769;912];
[970;834;8151];
[971;768;8162];
[971;769;944];
[971;834;8167];
[974;837;8180];
[978;769;979];
[978;776;980];
[1030;776;1031];
[1040;774;1232];
[1040;776;1234];
[1043;769;1027];
[1045;768;1024];
[1045;774;1238];
[1045;776;1025];
[1046;774;1217];
[1046;776;1244];
[1047;776;1246];
[1048;768;1037];
[1048;772;1250];
[1048;774;1049];
[1048;776;1252];
[1050;769;1036];
[1054;776;1254];
[1059;772;1262];
[1059;774;1038];
[1059;776;1264];
[1059;779;1266];
[1063;776;1268];
[1067;776;1272];
[1069;776;1260];
[1072;774;1233];
[1072;776;1235];
[1075;769;1107];
[1077;768;1104];
[1077;774;1239];
[1077;776;1105];
[1078;774;1218];
[1078;776;1245];
[1079;776;1247];
[1080;768;1117];
[1080;772;1251];
[1080;774;1081];
[1080;776;1253];
[1082;769;1116];
[1086;776;1255];
[1091;772;1263];
[1091;774;1118];
[1091;776;1265];
[1091;779;1267];
[1095;776;1269];
[1099;776;1273];
[1101;776;1261];
[1110;776;1111];
[1140;783;1142];
[1141;783;1143];
[1240;776;1242];
[1241;776;1243];
[1256;776;1258];
[1257;776;1259];
[1575;1619;1570];
[1575;1620;1571];
[1575;1621;1573];
[1608;1620;1572];
[1610;1620;1574];
[1729;1620;1730];
[1746;1620;1747];
[1749;1620;1728];
[2344;2364;2345];
[2352;2364;2353];
[2355;2364;2356];
[2503;2494;2507];
[2503;2519;2508];
[2887;2878;2891];
[2887;2902;2888];
[2887;2903;2892];
[2962;3031;2964];
[3014;3006;3018];
[3014;3031;3020];
[3015;3006;3019];
[3142;3158;3144];
[3263;3285;3264];
[3270;3266;3274];
[3270;3285;3271];
[3270;3286;3272];
[3274;3285;3275];
[3398;3390;3402];
[3398;3415;3404];
[3399;3390;3403];
[3545;3530;3546];
[3545;3535;3548];
[3545;3551;3550];
[3548;3530;3549];
[4133;4142;4134];
[6917;6965;6918];
[6919;6965;6920];
[6921;6965;6922];
[6923;6965;6924];
[6925;6965;6926];
[6929;6965;6930];
[6970;6965;6971];
[6972;6965;6973];
[6974;6965;6976];
[6975;6965;6977];
[6978;6965;6979];
[7734;772;7736];
[7735;772;7737];
[7770;772;7772];
[7771;772;7773];
[7778;775;7784];
[7779;775;7785];
[7840;770;7852];
[7840;774;7862];
[7841;770;7853];
[7841;774;7863];
[7864;770;7878];
[7865;770;7879];
[7884;770;7896];
[7885;770;7897];
[7936;768;7938];
[7936;769;7940];
[7936;834;7942];
[7936;837;8064];
[7937;768;7939];
[7937;769;7941];
[7937;834;7943];
[7937;837;8065];
[7938;837;8066];
[7939;837;8067];
[7940;837;8068];
[7941;837;8069];
[7942;837;8070];
[7943;837;8071];
[7944;768;7946];
[7944;769;7948];
[7944;834;7950];
[7944;837;8072];
[7945;768;7947];
[7945;769;7949];
[7945;834;7951];
[7945;837;8073];
[7946;837;8074];
[7947;837;8075];
[7948;837;8076];
[7949;837;8077];
[7950;837;8078];
[7951;837;8079];
[7952;768;7954];
[7952;769;7956];
[7953;768;7955];
[7953;769;7957];
[7960;768;7962];
[7960;769;7964];
[7961;768;7963];
[7961;769;7965];
[7968;768;7970];
[7968;769;7972];
[7968;834;7974];
[7968;837;8080];
[7969;768;7971];
[7969;769;7973];
[7969;834;7975];
[7969;837;8081];
[7970;837;8082];
[7971;837;8083];
[7972;837;8084];
[7973;837;8085];
[7974;837;8086];
[7975;837;8087];
[7976;768;7978];
[7976;769;7980];
[7976;834;7982];
[7976;837;8088];
[7977;768;7979];
[7977;769;7981];
[7977;834;7983];
[7977;837;8089];
[7978;837;8090];
[7979;837;8091];
[7980;837;8092];
[7981;837;8093];
[7982;837;8094];
[7983;837;8095];
[7984;768;7986];
[7984;769;7988];
[7984;834;7990];
[7985;768;7987];
[7985;769;7989];
[7985;834;7991];
[7992;768;7994];
[7992;769;7996];
[7992;834;7998];
[7993;768;7995];
[7993;769;7997];
[7993;834;7999];
[8000;768;8002];
[8000;769;8004];
[8001;768;8003];
[8001;769;8005];
[8008;768;8010];
[8008;769;8012];
[8009;768;8011];
[8009;769;8013];
[8016;768;8018];
[8016;769;8020];
[8016;834;8022];
[8017;768;8019];
[8017;769;8021];
[8017;834;8023];
[8025;768;8027];
[8025;769;8029];
[8025;834;8031];
[8032;768;8034];
[8032;769;8036];
[8032;834;8038];
[8032;837;8096];
[8033;768;8035];
[8033;769;8037];
[8033;834;8039];
[8033;837;8097];
[8034;837;8098];
[8035;837;8099];
[8036;837;8100];
[8037;837;8101];
[8038;837;8102];
[8039;837;8103];
[8040;768;8042];
[8040;769;8044];
[8040;834;8046];
[8040;837;8104];
[8041;768;8043];
[8041;769;8045];
[8041;834;8047];
[8041;837;8105];
[8042;837;8106];
[8043;837;8107];
[8044;837;8108];
[8045;837;8109];
[8046;837;8110];
[8047;837;8111];
[8048;837;8114];
[8052;837;8130];
[8060;837;8178];
[8118;837;8119];
[8127;768;8141];
[8127;769;8142];
[8127;834;8143];
[8134;837;8135];
[8182;837;8183];
[8190;768;8157];
[8190;769;8158];
[8190;834;8159];
[8592;824;8602];
[8594;824;8603];
[8596;824;8622];
[8656;824;8653];
[8658;824;8655];
[8660;824;8654];
[8707;824;8708];
[8712;824;8713];
[8715;824;8716];
[8739;824;8740];
[8741;824;8742];
[8764;824;8769];
[8771;824;8772];
[8773;824;8775];
[8776;824;8777];
[8781;824;8813];
[8801;824;8802];
[8804;824;8816];
[8805;824;8817];
[8818;824;8820];
[8819;824;8821];
[8822;824;8824];
[8823;824;8825];
[8826;824;8832];
[8827;824;8833];
[8828;824;8928];
[8829;824;8929];
[8834;824;8836];
[8835;824;8837];
[8838;824;8840];
[8839;824;8841];
[8849;824;8930];
[8850;824;8931];
[8866;824;8876];
[8872;824;8877];
[8873;824;8878];
[8875;824;8879];
[8882;824;8938];
[8883;824;8939];
[8884;824;8940];
[8885;824;8941];
[12358;12441;12436];
[12363;12441;12364];
[12365;12441;12366];
[12367;12441;12368];
[12369;12441;12370];
[12371;12441;12372];
[12373;12441;12374];
[12375;12441;12376];
[12377;12441;12378];
[12379;12441;12380];
[12381;12441;12382];
[12383;12441;12384];
[12385;12441;12386];
[12388;12441;12389];
[12390;12441;12391];
[12392;12441;12393];
[12399;12441;12400];
[12399;12442;12401];
[12402;12441;12403];
[12402;12442;12404];
[12405;12441;12406];
[12405;12442;12407];
[12408;12441;12409];
[12408;12442;12410];
[12411;12441;12412];
[12411;12442;12413];
[12445;12441;12446];
[12454;12441;12532];
[12459;12441;12460];
[12461;12441;12462];
[12463;12441;12464];
[12465;12441;12466];
[12467;12441;12468];
[12469;12441;12470];
[12471;12441;12472];
[12473;12441;12474];
[12475;12441;12476];
[12477;12441;12478];
[12479;12441;12480];
[12481;12441;12482];
[12484;12441;12485];
[12486;12441;12487];
[12488;12441;12489];
[12495;12441;12496];
[12495;12442;12497];
[12498;12441;12499];
[12498;12442;12500];
[12501;12441;12502];
[12501;12442;12503];
[12504;12441;12505];
[12504;12442;12506];
[12507;12441;12508];
[12507;12442;12509];
[12527;12441;12535];
[12528;12441;12536];
[12529;12441;12537];
[12530;12441;12538];
[12541;12441;12542];
[69785;69818;69786];
[69787;69818;69788];
[69797;69818;69803];
[69937;69927;69934];
[69938;69927;69935];
[70471;70462;70475];
[70471;70487;70476];
[70841;70832;70844];
[70841;70842;70843];
[70841;70845;70846];
[71096;71087;71098];
[71097;71087;71099]
].

(** src/u5e/props/grapheme_cluster_break_data.hpp, 1327 rows (range_start, range_end, value) *)
Definition grapheme_cluster_break_data : list (Z * Z * gcb) := [
(0,9,G_CONTROL);
(10,10,G_LF);
(11,12,G_CONTROL);
(13,13,G_CR);
(14,31,G_CONTROL);
(127,159,G_CONTROL);
(173,173,G_CONTROL);
(768,879,G_EXTEND);
(1155,1159,G_EXTEND);
(1160,1161,G_EXTEND);
(1425,1469,G_EXTEND);
(1471,1471,G_EXTEND);
(1473,1474,G_EXTEND);
(1476,1477,G_EXTEND);
(1479,1479,G_EXTEND);
(1536,1541,G_PREPEND);
(1552,1562,G_EXTEND);
(1564,1564,G_CONTROL);
(1611,1631,G_EXTEND);
(1648,1648,G_EXTEND);
(1750,1756,G_EXTEND);
(1757,1757,G_PREPEND);
(1759,1764,G_EXTEND);
(1767,1768,G_EXTEND);
(1770,1773,G_EXTEND);
(1807,1807,G_PREPEND);
(1809,1809,G_EXTEND);
(1840,1866,G_EXTEND);
(1958,1968,G_EXTEND);
(2027,2035,G_EXTEND);
(2070,2073,G_EXTEND);
(2075,2083,G_EXTEND);
(2085,2087,G_EXTEND);
(2089,2093,G_EXTEND);
(2137,2139,G_EXTEND);
(2260,2273,G_EXTEND);
(2274,2274,G_PREPEND);
(2275,2306,G_EXTEND);
(2307,2307,G_SPACINGMARK);
(2362,2362,G_EXTEND);
(2363,2363,G_SPACINGMARK);
(2364,2364,G_EXTEND);
(2366,2368,G_SPACINGMARK);
(2369,2376,G_EXTEND);
(2377,2380,G_SPACINGMARK);
(2381,2381,G_EXTEND);
(2382,2383,G_SPACINGMARK);
(2385,2391,G_EXTEND);
(2402,2403,G_EXTEND);
(2433,2433,G_EXTEND);
(2434,2435,G_SPACINGMARK);
(2492,2492,G_EXTEND);
(2494,2494,G_EXTEND);
(2495,2496,G_SPACINGMARK);
(2497,2500,G_EXTEND);
(2503,2504,G_SPACINGMARK);
(2507,2508,G_SPACINGMARK);
(2509,2509,G_EXTEND);
(2519,2519,G_EXTEND);
(2530,2531,G_EXTEND);
(2561,2562,G_EXTEND);
(2563,2563,G_SPACINGMARK);
(2620,2620,G_EXTEND);
(2622,2624,G_SPACINGMARK);
(2625,2626,G_EXTEND);
(2631,2632,G_EXTEND);
(2635,2637,G_EXTEND);
(2641,2641,G_EXTEND);
(2672,2673,G_EXTEND);
(2677,2677,G_EXTEND);
(2689,2690,G_EXTEND);
(2691,2691,G_SPACINGMARK);
(2748,2748,G_EXTEND);
(2750,2752,G_SPACINGMARK);
(2753,2757,G_EXTEND);
(2759,2760,G_EXTEND);
(2761,2761,G_SPACINGMARK);
(2763,2764,G_SPACINGMARK);
(2765,2765,G_EXTEND);
(2786,2787,G_EXTEND);
(2817,2817,G_EXTEND);
(2818,2819,G_SPACINGMARK);
(2876,2876,G_EXTEND);
(2878,2878,G_EXTEND);
(2879,2879,G_EXTEND);
(2880,2880,G_SPACINGMARK);
(2881,2884,G_EXTEND);
(2887,2888,G_SPACINGMARK);
(2891,2892,G_SPACINGMARK);
(2893,2893,G_EXTEND);
(2902,2902,G_EXTEND);
(2903,2903,G_EXTEND);
(2914,2915,G_EXTEND);
(2946,2946,G_EXTEND);
(3006,3006,G_EXTEND);
(3007,3007,G_SPACINGMARK);
(3008,3008,G_EXTEND);
(3009,3010,G_SPACINGMARK);
(3014,3016,G_SPACINGMARK);
(3018,3020,G_SPACINGMARK);
(3021,3021,G_EXTEND);
(3031,3031,G_EXTEND);
(3072,3072,G_EXTEND);
(3073,3075,G_SPACINGMARK);
(3134,3136,G_EXTEND);
(3137,3140,G_SPACINGMARK);
(3142,3144,G_EXTEND);
(3146,3149,G_EXTEND);
(3157,3158,G_EXTEND);
(3170,3171,G_EXTEND);
(3201,3201,G_EXTEND);
(3202,3203,G_SPACINGMARK);
(3260,3260,G_EXTEND);
(3262,3262,G_SPACINGMARK);
(3263,3263,G_EXTEND);
(3264,3265,G_SPACINGMARK);
(3266,3266,G_EXTEND);
(3267,3268,G_SPACINGMARK);
(3270,3270,G_EXTEND);
(3271,3272,G_SPACINGMARK);
(3274,3275,G_SPACINGMARK);
(3276,3277,G_EXTEND);
(3285,3286,G_EXTEND);
(3298,3299,G_EXTEND);
(3329,3329,G_EXTEND);
(3330,3331,G_SPACINGMARK);
(3390,3390,G_EXTEND);
(3391,3392,G_SPACINGMARK);
(3393,3396,G_EXTEND);
(3398,3400,G_SPACINGMARK);
(3402,3404,G_SPACINGMARK);
(3405,3405,G_EXTEND);
(3406,3406,G_PREPEND);
(3415,3415,G_EXTEND);
(3426,3427,G_EXTEND);
(3458,3459,G_SPACINGMARK);
(3530,3530,G_EXTEND);
(3535,3535,G_EXTEND);
(3536,3537,G_SPACINGMARK);
(3538,3540,G_EXTEND);
(3542,3542,G_EXTEND);
(3544,3550,G_SPACINGMARK);
(3551,3551,G_EXTEND);
(3570,3571,G_SPACINGMARK);
(3633,3633,G_EXTEND);
(3635,3635,G_SPACINGMARK);
(3636,3642,G_EXTEND);
(3655,3662,G_EXTEND);
(3761,3761,G_EXTEND);
(3763,3763,G_SPACINGMARK);
(3764,3769,G_EXTEND);
(3771,3772,G_EXTEND);
(3784,3789,G_EXTEND);
(3864,3865,G_EXTEND);
(3893,3893,G_EXTEND);
(3895,3895,G_EXTEND);
(3897,3897,G_EXTEND);
(3902,3903,G_SPACINGMARK);
(3953,3966,G_EXTEND);
(3967,3967,G_SPACINGMARK);
(3968,3972,G_EXTEND);
(3974,3975,G_EXTEND);
(3981,3991,G_EXTEND);
(3993,4028,G_EXTEND);
(4038,4038,G_EXTEND);
(4141,4144,G_EXTEND);
(4145,4145,G_SPACINGMARK);
(4146,4151,G_EXTEND);
(4153,4154,G_EXTEND);
(4155,4156,G_SPACINGMARK);
(4157,4158,G_EXTEND);
(4182,4183,G_SPACINGMARK);
(4184,4185,G_EXTEND);
(4190,4192,G_EXTEND);
(4209,4212,G_EXTEND);
(4226,4226,G_EXTEND);
(4228,4228,G_SPACINGMARK);
(4229,4230,G_EXTEND);
(4237,4237,G_EXTEND);
(4253,4253,G_EXTEND);
(4352,4447,G_L);
(4448,4519,G_V);
(4520,4607,G_T);
(4957,4959,G_EXTEND);
(5906,5908,G_EXTEND);
(5938,5940,G_EXTEND);
(5970,5971,G_EXTEND);
(6002,6003,G_EXTEND);
(6068,6069,G_EXTEND);
(6070,6070,G_SPACINGMARK);
(6071,6077,G_EXTEND);
(6078,6085,G_SPACINGMARK);
(6086,6086,G_EXTEND);
(6087,6088,G_SPACINGMARK);
(6089,6099,G_EXTEND);
(6109,6109,G_EXTEND);
(6155,6157,G_EXTEND);
(6158,6158,G_CONTROL);
(6277,6278,G_EXTEND);
(6313,6313,G_EXTEND);
(6432,6434,G_EXTEND);
(6435,6438,G_SPACINGMARK);
(6439,6440,G_EXTEND);
(6441,6443,G_SPACINGMARK);
(6448,6449,G_SPACINGMARK);
(6450,6450,G_EXTEND);
(6451,6456,G_SPACINGMARK);
(6457,6459,G_EXTEND);
(6679,6680,G_EXTEND);
(6681,6682,G_SPACINGMARK);
(6683,6683,G_EXTEND);
(6741,6741,G_SPACINGMARK);
(6742,6742,G_EXTEND);
(6743,6743,G_SPACINGMARK);
(6744,6750,G_EXTEND);
(6752,6752,G_EXTEND);
(6754,6754,G_EXTEND);
(6757,6764,G_EXTEND);
(6765,6770,G_SPACINGMARK);
(6771,6780,G_EXTEND);
(6783,6783,G_EXTEND);
(6832,6845,G_EXTEND);
(6846,6846,G_EXTEND);
(6912,6915,G_EXTEND);
(6916,6916,G_SPACINGMARK);
(6964,6964,G_EXTEND);
(6965,6965,G_SPACINGMARK);
(6966,6970,G_EXTEND);
(6971,6971,G_SPACINGMARK);
(6972,6972,G_EXTEND);
(6973,6977,G_SPACINGMARK);
(6978,6978,G_EXTEND);
(6979,6980,G_SPACINGMARK);
(7019,7027,G_EXTEND);
(7040,7041,G_EXTEND);
(7042,7042,G_SPACINGMARK);
(7073,7073,G_SPACINGMARK);
(7074,7077,G_EXTEND);
(7078,7079,G_SPACINGMARK);
(7080,7081,G_EXTEND);
(7082,7082,G_SPACINGMARK);
(7083,7085,G_EXTEND);
(7142,7142,G_EXTEND);
(7143,7143,G_SPACINGMARK);
(7144,7145,G_EXTEND);
(7146,7148,G_SPACINGMARK);
(7149,7149,G_EXTEND);
(7150,7150,G_SPACINGMARK);
(7151,7153,G_EXTEND);
(7154,7155,G_SPACINGMARK);
(7204,7211,G_SPACINGMARK);
(7212,7219,G_EXTEND);
(7220,7221,G_SPACINGMARK);
(7222,7223,G_EXTEND);
(7376,7378,G_EXTEND);
(7380,7392,G_EXTEND);
(7393,7393,G_SPACINGMARK);
(7394,7400,G_EXTEND);
(7405,7405,G_EXTEND);
(7410,7411,G_SPACINGMARK);
(7412,7412,G_EXTEND);
(7416,7417,G_EXTEND);
(7616,7669,G_EXTEND);
(7675,7679,G_EXTEND);
(8203,8203,G_CONTROL);
(8204,8204,G_EXTEND);
(8205,8205,G_ZWJ);
(8206,8207,G_CONTROL);
(8232,8232,G_CONTROL);
(8233,8233,G_CONTROL);
(8234,8238,G_CONTROL);
(8288,8292,G_CONTROL);
(8293,8293,G_CONTROL);
(8294,8303,G_CONTROL);
(8400,8412,G_EXTEND);
(8413,8416,G_EXTEND);
(8417,8417,G_EXTEND);
(8418,8420,G_EXTEND);
(8421,8432,G_EXTEND);
(9757,9757,G_E_BASE);
(9977,9977,G_E_BASE);
(9994,9997,G_E_BASE);
(10084,10084,G_GLUE_AFTER_ZWJ);
(11503,11505,G_EXTEND);
(11647,11647,G_EXTEND);
(11744,11775,G_EXTEND);
(12330,12333,G_EXTEND);
(12334,12335,G_EXTEND);
(12441,12442,G_EXTEND);
(42607,42607,G_EXTEND);
(42608,42610,G_EXTEND);
(42612,42621,G_EXTEND);
(42654,42655,G_EXTEND);
(42736,42737,G_EXTEND);
(43010,43010,G_EXTEND);
(43014,43014,G_EXTEND);
(43019,43019,G_EXTEND);
(43043,43044,G_SPACINGMARK);
(43045,43046,G_EXTEND);
(43047,43047,G_SPACINGMARK);
(43136,43137,G_SPACINGMARK);
(43188,43203,G_SPACINGMARK);
(43204,43205,G_EXTEND);
(43232,43249,G_EXTEND);
(43302,43309,G_EXTEND);
(43335,43345,G_EXTEND);
(43346,43347,G_SPACINGMARK);
(43360,43388,G_L);
(43392,43394,G_EXTEND);
(43395,43395,G_SPACINGMARK);
(43443,43443,G_EXTEND);
(43444,43445,G_SPACINGMARK);
(43446,43449,G_EXTEND);
(43450,43451,G_SPACINGMARK);
(43452,43452,G_EXTEND);
(43453,43456,G_SPACINGMARK);
(43493,43493,G_EXTEND);
(43561,43566,G_EXTEND);
(43567,43568,G_SPACINGMARK);
(43569,43570,G_EXTEND);
(43571,43572,G_SPACINGMARK);
(43573,43574,G_EXTEND);
(43587,43587,G_EXTEND);
(43596,43596,G_EXTEND);
(43597,43597,G_SPACINGMARK);
(43644,43644,G_EXTEND);
(43696,43696,G_EXTEND);
(43698,43700,G_EXTEND);
(43703,43704,G_EXTEND);
(43710,43711,G_EXTEND);
(43713,43713,G_EXTEND);
(43755,43755,G_SPACINGMARK);
(43756,43757,G_EXTEND);
(43758,43759,G_SPACINGMARK);
(43765,43765,G_SPACINGMARK);
(43766,43766,G_EXTEND);
(44003,44004,G_SPACINGMARK);
(44005,44005,G_EXTEND);
(44006,44007,G_SPACINGMARK);
(44008,44008,G_EXTEND);
(44009,44010,G_SPACINGMARK);
(44012,44012,G_SPACINGMARK);
(44013,44013,G_EXTEND);
(44032,44032,G_LV);
(44033,44059,G_LVT);
(44060,44060,G_LV);
(44061,44087,G_LVT);
(44088,44088,G_LV);
(44089,44115,G_LVT);
(44116,44116,G_LV);
(44117,44143,G_LVT);
(44144,44144,G_LV);
(44145,44171,G_LVT);
(44172,44172,G_LV);
(44173,44199,G_LVT);
(44200,44200,G_LV);
(44201,44227,G_LVT);
(44228,44228,G_LV);
(44229,44255,G_LVT);
(44256,44256,G_LV);
(44257,44283,G_LVT);
(44284,44284,G_LV);
(44285,44311,G_LVT);
(44312,44312,G_LV);
(44313,44339,G_LVT);
(44340,44340,G_LV);
(44341,44367,G_LVT);
(44368,44368,G_LV);
(44369,44395,G_LVT);
(44396,44396,G_LV);
(44397,44423,G_LVT);
(44424,44424,G_LV);
(44425,44451,G_LVT);
(44452,44452,G_LV);
(44453,44479,G_LVT);
(44480,44480,G_LV);
(44481,44507,G_LVT);
(44508,44508,G_LV);
(44509,44535,G_LVT);
(44536,44536,G_LV);
(44537,44563,G_LVT);
(44564,44564,G_LV);
(44565,44591,G_LVT);
(44592,44592,G_LV);
(44593,44619,G_LVT);
(44620,44620,G_LV);
(44621,44647,G_LVT);
(44648,44648,G_LV);
(44649,44675,G_LVT);
(44676,44676,G_LV);
(44677,44703,G_LVT);
(44704,44704,G_LV);
(44705,44731,G_LVT);
(44732,44732,G_LV);
(44733,44759,G_LVT);
(44760,44760,G_LV);
(44761,44787,G_LVT);
(44788,44788,G_LV);
(44789,44815,G_LVT);
(44816,44816,G_LV);
(44817,44843,G_LVT);
(44844,44844,G_LV);
(44845,44871,G_LVT);
(44872,44872,G_LV);
(44873,44899,G_LVT);
(44900,44900,G_LV);
(44901,44927,G_LVT);
(44928,44928,G_LV);
(44929,44955,G_LVT);
(44956,44956,G_LV);
(44957,44983,G_LVT);
(44984,44984,G_LV);
(44985,45011,G_LVT);
(45012,45012,G_LV);
(45013,45039,G_LVT);
(45040,45040,G_LV);
(45041,45067,G_LVT);
(45068,45068,G_LV);
(45069,45095,G_LVT);
(45096,45096,G_LV);
(45097,45123,G_LVT);
(45124,45124,G_LV);
(45125,45151,G_LVT);
(45152,45152,G_LV);
(45153,45179,G_LVT);
(45180,45180,G_LV);
(45181,45207,G_LVT);
(45208,45208,G_LV);
(45209,45235,G_LVT);
(45236,45236,G_LV);
(45237,45263,G_LVT);
(45264,45264,G_LV);
(45265,45291,G_LVT);
(45292,45292,G_LV);
(45293,45319,G_LVT);
(45320,45320,G_LV);
(45321,45347,G_LVT);
(45348,45348,G_LV);
(45349,45375,G_LVT);
(45376,45376,G_LV);
(45377,45403,G_LVT);
(45404,45404,G_LV);
(45405,45431,G_LVT);
(45432,45432,G_LV);
(45433,45459,G_LVT);
(45460,45460,G_LV);
(45461,45487,G_LVT);
(45488,45488,G_LV);
(45489,45515,G_LVT);
(45516,45516,G_LV);
(45517,45543,G_LVT);
(45544,45544,G_LV);
(45545,45571,G_LVT);
(45572,45572,G_LV);
(45573,45599,G_LVT);
(45600,45600,G_LV);
(45601,45627,G_LVT);
(45628,45628,G_LV);
(45629,45655,G_LVT);
(45656,45656,G_LV);
(45657,45683,G_LVT);
(45684,45684,G_LV);
(45685,45711,G_LVT);
(45712,45712,G_LV);
(45713,45739,G_LVT);
(45740,45740,G_LV);
(45741,45767,G_LVT);
(45768,45768,G_LV);
(45769,45795,G_LVT);
(45796,45796,G_LV);
(45797,45823,G_LVT);
(45824,45824,G_LV);
(45825,45851,G_LVT);
(45852,45852,G_LV);
(45853,45879,G_LVT);
(45880,45880,G_LV);
(45881,45907,G_LVT);
(45908,45908,G_LV);
(45909,45935,G_LVT);
(45936,45936,G_LV);
(45937,45963,G_LVT);
(45964,45964,G_LV);
(45965,45991,G_LVT);
(45992,45992,G_LV);
(45993,46019,G_LVT);
(46020,46020,G_LV);
(46021,46047,G_LVT);
(46048,46048,G_LV);
(46049,46075,G_LVT);
(46076,46076,G_LV);
(46077,46103,G_LVT);
(46104,46104,G_LV);
(46105,46131,G_LVT);
(46132,46132,G_LV);
(46133,46159,G_LVT);
(46160,46160,G_LV);
(46161,46187,G_LVT);
(46188,46188,G_LV);
(46189,46215,G_LVT);
(46216,46216,G_LV);
(46217,46243,G_LVT);
(46244,46244,G_LV);
(46245,46271,G_LVT);
(46272,46272,G_LV);
(46273,46299,G_LVT);
(46300,46300,G_LV);
(46301,46327,G_LVT);
(46328,46328,G_LV);
(46329,46355,G_LVT);
(46356,46356,G_LV);
(46357,46383,G_LVT);
(46384,46384,G_LV);
(46385,46411,G_LVT);
(46412,46412,G_LV);
(46413,46439,G_LVT);
(46440,46440,G_LV);
(46441,46467,G_LVT);
(46468,46468,G_LV);
(46469,46495,G_LVT);
(46496,46496,G_LV);
(46497,46523,G_LVT);
(46524,46524,G_LV);
(46525,46551,G_LVT);
(46552,46552,G_LV);
(46553,46579,G_LVT);
(46580,46580,G_LV);
(46581,46607,G_LVT);
(46608,46608,G_LV);
(46609,46635,G_LVT);
(46636,46636,G_LV);
(46637,46663,G_LVT);
(46664,46664,G_LV);
(46665,46691,G_LVT);
(46692,46692,G_LV);
(46693,46719,G_LVT);
(46720,46720,G_LV);
(46721,46747,G_LVT);
(46748,46748,G_LV);
(46749,46775,G_LVT);
(46776,46776,G_LV);
(46777,46803,G_LVT);
(46804,46804,G_LV);
(46805,46831,G_LVT);
(46832,46832,G_LV);
(46833,46859,G_LVT);
(46860,46860,G_LV);
(46861,46887,G_LVT);
(46888,46888,G_LV);
(46889,46915,G_LVT);
(46916,46916,G_LV);
(46917,46943,G_LVT);
(46944,46944,G_LV);
(46945,46971,G_LVT);
(46972,46972,G_LV);
(46973,46999,G_LVT);
(47000,47000,G_LV);
(47001,47027,G_LVT);
(47028,47028,G_LV);
(47029,47055,G_LVT);
(47056,47056,G_LV);
(47057,47083,G_LVT);
(47084,47084,G_LV);
(47085,47111,G_LVT);
(47112,47112,G_LV);
(47113,47139,G_LVT);
(47140,47140,G_LV);
(47141,47167,G_LVT);
(47168,47168,G_LV);
(47169,47195,G_LVT);
(47196,47196,G_LV);
(47197,47223,G_LVT);
(47224,47224,G_LV);
(47225,47251,G_LVT);
(47252,47252,G_LV);
(47253,47279,G_LVT);
(47280,47280,G_LV);
(47281,47307,G_LVT);
(47308,47308,G_LV);
(47309,47335,G_LVT);
(47336,47336,G_LV);
(47337,47363,G_LVT);
(47364,47364,G_LV);
(47365,47391,G_LVT);
(47392,47392,G_LV);
(47393,47419,G_LVT);
(47420,47420,G_LV);
(47421,47447,G_LVT);
(47448,47448,G_LV);
(47449,47475,G_LVT);
(47476,47476,G_LV);
(47477,47503,G_LVT);
(47504,47504,G_LV);
(47505,47531,G_LVT);
(47532,47532,G_LV);
(47533,47559,G_LVT);
(47560,47560,G_LV);
(47561,47587,G_LVT);
(47588,47588,G_LV);
(47589,47615,G_LVT);
(47616,47616,G_LV);
(47617,47643,G_LVT);
(47644,47644,G_LV);
(47645,47671,G_LVT);
(47672,47672,G_LV);
(47673,47699,G_LVT);
(47700,47700,G_LV);
(47701,47727,G_LVT);
(47728,47728,G_LV);
(47729,47755,G_LVT);
(47756,47756,G_LV);
(47757,47783,G_LVT);
(47784,47784,G_LV);
(47785,47811,G_LVT);
(47812,47812,G_LV);
(47813,47839,G_LVT);
(47840,47840,G_LV);
(47841,47867,G_LVT);
(47868,47868,G_LV);
(47869,47895,G_LVT);
(47896,47896,G_LV);
(47897,47923,G_LVT);
(47924,47924,G_LV);
(47925,47951,G_LVT);
(47952,47952,G_LV);
(47953,47979,G_LVT);
(47980,47980,G_LV);
(47981,48007,G_LVT);
(48008,48008,G_LV);
(48009,48035,G_LVT);
(48036,48036,G_LV);
(48037,48063,G_LVT);
(48064,48064,G_LV);
(48065,48091,G_LVT);
(48092,48092,G_LV);
(48093,48119,G_LVT);
(48120,48120,G_LV);
(48121,48147,G_LVT);
(48148,48148,G_LV);
(48149,48175,G_LVT);
(48176,48176,G_LV);
(48177,48203,G_LVT);
(48204,48204,G_LV);
(48205,48231,G_LVT);
(48232,48232,G_LV);
(48233,48259,G_LVT);
(48260,48260,G_LV);
(48261,48287,G_LVT);
(48288,48288,G_LV);
(48289,48315,G_LVT);
(48316,48316,G_LV);
(48317,48343,G_LVT);
(48344,48344,G_LV);
(48345,48371,G_LVT);
(48372,48372,G_LV);
(48373,48399,G_LVT);
(48400,48400,G_LV);
(48401,48427,G_LVT);
(48428,48428,G_LV);
(48429,48455,G_LVT);
(48456,48456,G_LV);
(48457,48483,G_LVT);
(48484,48484,G_LV);
(48485,48511,G_LVT);
(48512,48512,G_LV);
(48513,48539,G_LVT);
(48540,48540,G_LV);
(48541,48567,G_LVT);
(48568,48568,G_LV);
(48569,48595,G_LVT);
(48596,48596,G_LV);
(48597,48623,G_LVT);
(48624,48624,G_LV);
(48625,48651,G_LVT);
(48652,48652,G_LV);
(48653,48679,G_LVT);
(48680,48680,G_LV);
(48681,48707,G_LVT);
(48708,48708,G_LV);
(48709,48735,G_LVT);
(48736,48736,G_LV);
(48737,48763,G_LVT);
(48764,48764,G_LV);
(48765,48791,G_LVT);
(48792,48792,G_LV);
(48793,48819,G_LVT);
(48820,48820,G_LV);
(48821,48847,G_LVT);
(48848,48848,G_LV);
(48849,48875,G_LVT);
(48876,48876,G_LV);
(48877,48903,G_LVT);
(48904,48904,G_LV);
(48905,48931,G_LVT);
(48932,48932,G_LV);
(48933,48959,G_LVT);
(48960,48960,G_LV);
(48961,48987,G_LVT);
(48988,48988,G_LV);
(48989,49015,G_LVT);
(49016,49016,G_LV);
(49017,49043,G_LVT);
(49044,49044,G_LV);
(49045,49071,G_LVT);
(49072,49072,G_LV);
(49073,49099,G_LVT);
(49100,49100,G_LV);
(49101,49127,G_LVT);
(49128,49128,G_LV);
(49129,49155,G_LVT);
(49156,49156,G_LV);
(49157,49183,G_LVT);
(49184,49184,G_LV);
(49185,49211,G_LVT);
(49212,49212,G_LV);
(49213,49239,G_LVT);
(49240,49240,G_LV);
(49241,49267,G_LVT);
(49268,49268,G_LV);
(49269,49295,G_LVT);
(49296,49296,G_LV);
(49297,49323,G_LVT);
(49324,49324,G_LV);
(49325,49351,G_LVT);
(49352,49352,G_LV);
(49353,49379,G_LVT);
(49380,49380,G_LV);
(49381,49407,G_LVT);
(49408,49408,G_LV);
(49409,49435,G_LVT);
(49436,49436,G_LV);
(49437,49463,G_LVT);
(49464,49464,G_LV);
(49465,49491,G_LVT);
(49492,49492,G_LV);
(49493,49519,G_LVT);
(49520,49520,G_LV);
(49521,49547,G_LVT);
(49548,49548,G_LV);
(49549,49575,G_LVT);
(49576,49576,G_LV);
(49577,49603,G_LVT);
(49604,49604,G_LV);
(49605,49631,G_LVT);
(49632,49632,G_LV);
(49633,49659,G_LVT);
(49660,49660,G_LV);
(49661,49687,G_LVT);
(49688,49688,G_LV);
(49689,49715,G_LVT);
(49716,49716,G_LV);
(49717,49743,G_LVT);
(49744,49744,G_LV);
(49745,49771,G_LVT);
(49772,49772,G_LV);
(49773,49799,G_LVT);
(49800,49800,G_LV);
(49801,49827,G_LVT);
(49828,49828,G_LV);
(49829,49855,G_LVT);
(49856,49856,G_LV);
(49857,49883,G_LVT);
(49884,49884,G_LV);
(49885,49911,G_LVT);
(49912,49912,G_LV);
(49913,49939,G_LVT);
(49940,49940,G_LV);
(49941,49967,G_LVT);
(49968,49968,G_LV);
(49969,49995,G_LVT);
(49996,49996,G_LV);
(49997,50023,G_LVT);
(50024,50024,G_LV);
(50025,50051,G_LVT);
(50052,50052,G_LV);
(50053,50079,G_LVT);
(50080,50080,G_LV);
(50081,50107,G_LVT);
(50108,50108,G_LV);
(50109,50135,G_LVT);
(50136,50136,G_LV);
(50137,50163,G_LVT);
(50164,50164,G_LV);
(50165,50191,G_LVT);
(50192,50192,G_LV);
(50193,50219,G_LVT);
(50220,50220,G_LV);
(50221,50247,G_LVT);
(50248,50248,G_LV);
(50249,50275,G_LVT);
(50276,50276,G_LV);
(50277,50303,G_LVT);
(50304,50304,G_LV);
(50305,50331,G_LVT);
(50332,50332,G_LV);
(50333,50359,G_LVT);
(50360,50360,G_LV);
(50361,50387,G_LVT);
(50388,50388,G_LV);
(50389,50415,G_LVT);
(50416,50416,G_LV);
(50417,50443,G_LVT);
(50444,50444,G_LV);
(50445,50471,G_LVT);
(50472,50472,G_LV);
(50473,50499,G_LVT);
(50500,50500,G_LV);
(50501,50527,G_LVT);
(50528,50528,G_LV);
(50529,50555,G_LVT);
(50556,50556,G_LV);
(50557,50583,G_LVT);
(50584,50584,G_LV);
(50585,50611,G_LVT);
(50612,50612,G_LV);
(50613,50639,G_LVT);
(50640,50640,G_LV);
(50641,50667,G_LVT);
(50668,50668,G_LV);
(50669,50695,G_LVT);
(50696,50696,G_LV);
(50697,50723,G_LVT);
(50724,50724,G_LV);
(50725,50751,G_LVT);
(50752,50752,G_LV);
(50753,50779,G_LVT);
(50780,50780,G_LV);
(50781,50807,G_LVT);
(50808,50808,G_LV);
(50809,50835,G_LVT);
(50836,50836,G_LV);
(50837,50863,G_LVT);
(50864,50864,G_LV);
(50865,50891,G_LVT);
(50892,50892,G_LV);
(50893,50919,G_LVT);
(50920,50920,G_LV);
(50921,50947,G_LVT);
(50948,50948,G_LV);
(50949,50975,G_LVT);
(50976,50976,G_LV);
(50977,51003,G_LVT);
(51004,51004,G_LV);
(51005,51031,G_LVT);
(51032,51032,G_LV);
(51033,51059,G_LVT);
(51060,51060,G_LV);
(51061,51087,G_LVT);
(51088,51088,G_LV);
(51089,51115,G_LVT);
(51116,51116,G_LV);
(51117,51143,G_LVT);
(51144,51144,G_LV);
(51145,51171,G_LVT);
(51172,51172,G_LV);
(51173,51199,G_LVT);
(51200,51200,G_LV);
(51201,51227,G_LVT);
(51228,51228,G_LV);
(51229,51255,G_LVT);
(51256,51256,G_LV);
(51257,51283,G_LVT);
(51284,51284,G_LV);
(51285,51311,G_LVT);
(51312,51312,G_LV);
(51313,51339,G_LVT);
(51340,51340,G_LV);
(51341,51367,G_LVT);
(51368,51368,G_LV);
(51369,51395,G_LVT);
(51396,51396,G_LV);
(51397,51423,G_LVT);
(51424,51424,G_LV);
(51425,51451,G_LVT);
(51452,51452,G_LV);
(51453,51479,G_LVT);
(51480,51480,G_LV);
(51481,51507,G_LVT);
(51508,51508,G_LV);
(51509,51535,G_LVT);
(51536,51536,G_LV);
(51537,51563,G_LVT);
(51564,51564,G_LV);
(51565,51591,G_LVT);
(51592,51592,G_LV);
(51593,51619,G_LVT);
(51620,51620,G_LV);
(51621,51647,G_LVT);
(51648,51648,G_LV);
(51649,51675,G_LVT);
(51676,51676,G_LV);
(51677,51703,G_LVT);
(51704,51704,G_LV);
(51705,51731,G_LVT);
(51732,51732,G_LV);
(51733,51759,G_LVT);
(51760,51760,G_LV);
(51761,51787,G_LVT);
(51788,51788,G_LV);
(51789,51815,G_LVT);
(51816,51816,G_LV);
(51817,51843,G_LVT);
(51844,51844,G_LV);
(51845,51871,G_LVT);
(51872,51872,G_LV);
(51873,51899,G_LVT);
(51900,51900,G_LV);
(51901,51927,G_LVT);
(51928,51928,G_LV);
(51929,51955,G_LVT);
(51956,51956,G_LV);
(51957,51983,G_LVT);
(51984,51984,G_LV);
(51985,52011,G_LVT);
(52012,52012,G_LV);
(52013,52039,G_LVT);
(52040,52040,G_LV);
(52041,52067,G_LVT);
(52068,52068,G_LV);
(52069,52095,G_LVT);
(52096,52096,G_LV);
(52097,52123,G_LVT);
(52124,52124,G_LV);
(52125,52151,G_LVT);
(52152,52152,G_LV);
(52153,52179,G_LVT);
(52180,52180,G_LV);
(52181,52207,G_LVT);
(52208,52208,G_LV);
(52209,52235,G_LVT);
(52236,52236,G_LV);
(52237,52263,G_LVT);
(52264,52264,G_LV);
(52265,52291,G_LVT);
(52292,52292,G_LV);
(52293,52319,G_LVT);
(52320,52320,G_LV);
(52321,52347,G_LVT);
(52348,52348,G_LV);
(52349,52375,G_LVT);
(52376,52376,G_LV);
(52377,52403,G_LVT);
(52404,52404,G_LV);
(52405,52431,G_LVT);
(52432,52432,G_LV);
(52433,52459,G_LVT);
(52460,52460,G_LV);
(52461,52487,G_LVT);
(52488,52488,G_LV);
(52489,52515,G_LVT);
(52516,52516,G_LV);
(52517,52543,G_LVT);
(52544,52544,G_LV);
(52545,52571,G_LVT);
(52572,52572,G_LV);
(52573,52599,G_LVT);
(52600,52600,G_LV);
(52601,52627,G_LVT);
(52628,52628,G_LV);
(52629,52655,G_LVT);
(52656,52656,G_LV);
(52657,52683,G_LVT);
(52684,52684,G_LV);
(52685,52711,G_LVT);
(52712,52712,G_LV);
(52713,52739,G_LVT);
(52740,52740,G_LV);
(52741,52767,G_LVT);
(52768,52768,G_LV);
(52769,52795,G_LVT);
(52796,52796,G_LV);
(52797,52823,G_LVT);
(52824,52824,G_LV);
(52825,52851,G_LVT);
(52852,52852,G_LV);
(52853,52879,G_LVT);
(52880,52880,G_LV);
(52881,52907,G_LVT);
(52908,52908,G_LV);
(52909,52935,G_LVT);
(52936,52936,G_LV);
(52937,52963,G_LVT);
(52964,52964,G_LV);
(52965,52991,G_LVT);
(52992,52992,G_LV);
(52993,53019,G_LVT);
(53020,53020,G_LV);
(53021,53047,G_LVT);
(53048,53048,G_LV);
(53049,53075,G_LVT);
(53076,53076,G_LV);
(53077,53103,G_LVT);
(53104,53104,G_LV);
(53105,53131,G_LVT);
(53132,53132,G_LV);
(53133,53159,G_LVT);
(53160,53160,G_LV);
(53161,53187,G_LVT);
(53188,53188,G_LV);
(53189,53215,G_LVT);
(53216,53216,G_LV);
(53217,53243,G_LVT);
(53244,53244,G_LV);
(53245,53271,G_LVT);
(53272,53272,G_LV);
(53273,53299,G_LVT);
(53300,53300,G_LV);
(53301,53327,G_LVT);
(53328,53328,G_LV);
(53329,53355,G_LVT);
(53356,53356,G_LV);
(53357,53383,G_LVT);
(53384,53384,G_LV);
(53385,53411,G_LVT);
(53412,53412,G_LV);
(53413,53439,G_LVT);
(53440,53440,G_LV);
(53441,53467,G_LVT);
(53468,53468,G_LV);
(53469,53495,G_LVT);
(53496,53496,G_LV);
(53497,53523,G_LVT);
(53524,53524,G_LV);
(53525,53551,G_LVT);
(53552,53552,G_LV);
(53553,53579,G_LVT);
(53580,53580,G_LV);
(53581,53607,G_LVT);
(53608,53608,G_LV);
(53609,53635,G_LVT);
(53636,53636,G_LV);
(53637,53663,G_LVT);
(53664,53664,G_LV);
(53665,53691,G_LVT);
(53692,53692,G_LV);
(53693,53719,G_LVT);
(53720,53720,G_LV);
(53721,53747,G_LVT);
(53748,53748,G_LV);
(53749,53775,G_LVT);
(53776,53776,G_LV);
(53777,53803,G_LVT);
(53804,53804,G_LV);
(53805,53831,G_LVT);
(53832,53832,G_LV);
(53833,53859,G_LVT);
(53860,53860,G_LV);
(53861,53887,G_LVT);
(53888,53888,G_LV);
(53889,53915,G_LVT);
(53916,53916,G_LV);
(53917,53943,G_LVT);
(53944,53944,G_LV);
(53945,53971,G_LVT);
(53972,53972,G_LV);
(53973,53999,G_LVT);
(54000,54000,G_LV);
(54001,54027,G_LVT);
(54028,54028,G_LV);
(54029,54055,G_LVT);
(54056,54056,G_LV);
(54057,54083,G_LVT);
(54084,54084,G_LV);
(54085,54111,G_LVT);
(54112,54112,G_LV);
(54113,54139,G_LVT);
(54140,54140,G_LV);
(54141,54167,G_LVT);
(54168,54168,G_LV);
(54169,54195,G_LVT);
(54196,54196,G_LV);
(54197,54223,G_LVT);
(54224,54224,G_LV);
(54225,54251,G_LVT);
(54252,54252,G_LV);
(54253,54279,G_LVT);
(54280,54280,G_LV);
(54281,54307,G_LVT);
(54308,54308,G_LV);
(54309,54335,G_LVT);
(54336,54336,G_LV);
(54337,54363,G_LVT);
(54364,54364,G_LV);
(54365,54391,G_LVT);
(54392,54392,G_LV);
(54393,54419,G_LVT);
(54420,54420,G_LV);
(54421,54447,G_LVT);
(54448,54448,G_LV);
(54449,54475,G_LVT);
(54476,54476,G_LV);
(54477,54503,G_LVT);
(54504,54504,G_LV);
(54505,54531,G_LVT);
(54532,54532,G_LV);
(54533,54559,G_LVT);
(54560,54560,G_LV);
(54561,54587,G_LVT);
(54588,54588,G_LV);
(54589,54615,G_LVT);
(54616,54616,G_LV);
(54617,54643,G_LVT);
(54644,54644,G_LV);
(54645,54671,G_LVT);
(54672,54672,G_LV);
(54673,54699,G_LVT);
(54700,54700,G_LV);
(54701,54727,G_LVT);
(54728,54728,G_LV);
(54729,54755,G_LVT);
(54756,54756,G_LV);
(54757,54783,G_LVT);
(54784,54784,G_LV);
(54785,54811,G_LVT);
(54812,54812,G_LV);
(54813,54839,G_LVT);
(54840,54840,G_LV);
(54841,54867,G_LVT);
(54868,54868,G_LV);
(54869,54895,G_LVT);
(54896,54896,G_LV);
(54897,54923,G_LVT);
(54924,54924,G_LV);
(54925,54951,G_LVT);
(54952,54952,G_LV);
(54953,54979,G_LVT);
(54980,54980,G_LV);
(54981,55007,G_LVT);
(55008,55008,G_LV);
(55009,55035,G_LVT);
(55036,55036,G_LV);
(55037,55063,G_LVT);
(55064,55064,G_LV);
(55065,55091,G_LVT);
(55092,55092,G_LV);
(55093,55119,G_LVT);
(55120,55120,G_LV);
(55121,55147,G_LVT);
(55148,55148,G_LV);
(55149,55175,G_LVT);
(55176,55176,G_LV);
(55177,55203,G_LVT);
(55216,55238,G_V);
(55243,55291,G_T);
(55296,57343,G_CONTROL);
(64286,64286,G_EXTEND);
(65024,65039,G_EXTEND);
(65056,65071,G_EXTEND);
(65279,65279,G_CONTROL);
(65438,65439,G_EXTEND);
(65520,65528,G_CONTROL);
(65529,65531,G_CONTROL);
(66045,66045,G_EXTEND);
(66272,66272,G_EXTEND);
(66422,66426,G_EXTEND);
(68097,68099,G_EXTEND);
(68101,68102,G_EXTEND);
(68108,68111,G_EXTEND);
(68152,68154,G_EXTEND);
(68159,68159,G_EXTEND);
(68325,68326,G_EXTEND);
(69632,69632,G_SPACINGMARK);
(69633,69633,G_EXTEND);
(69634,69634,G_SPACINGMARK);
(69688,69702,G_EXTEND);
(69759,69761,G_EXTEND);
(69762,69762,G_SPACINGMARK);
(69808,69810,G_SPACINGMARK);
(69811,69814,G_EXTEND);
(69815,69816,G_SPACINGMARK);
(69817,69818,G_EXTEND);
(69821,69821,G_PREPEND);
(69888,69890,G_EXTEND);
(69927,69931,G_EXTEND);
(69932,69932,G_SPACINGMARK);
(69933,69940,G_EXTEND);
(70003,70003,G_EXTEND);
(70016,70017,G_EXTEND);
(70018,70018,G_SPACINGMARK);
(70067,70069,G_SPACINGMARK);
(70070,70078,G_EXTEND);
(70079,70080,G_SPACINGMARK);
(70082,70083,G_PREPEND);
(70090,70092,G_EXTEND);
(70188,70190,G_SPACINGMARK);
(70191,70193,G_EXTEND);
(70194,70195,G_SPACINGMARK);
(70196,70196,G_EXTEND);
(70197,70197,G_SPACINGMARK);
(70198,70199,G_EXTEND);
(70206,70206,G_EXTEND);
(70367,70367,G_EXTEND);
(70368,70370,G_SPACINGMARK);
(70371,70378,G_EXTEND);
(70400,70401,G_EXTEND);
(70402,70403,G_SPACINGMARK);
(70460,70460,G_EXTEND);
(70462,70462,G_EXTEND);
(70463,70463,G_SPACINGMARK);
(70464,70464,G_EXTEND);
(70465,70468,G_SPACINGMARK);
(70471,70472,G_SPACINGMARK);
(70475,70477,G_SPACINGMARK);
(70487,70487,G_EXTEND);
(70498,70499,G_SPACINGMARK);
(70502,70508,G_EXTEND);
(70512,70516,G_EXTEND);
(70709,70711,G_SPACINGMARK);
(70712,70719,G_EXTEND);
(70720,70721,G_SPACINGMARK);
(70722,70724,G_EXTEND);
(70725,70725,G_SPACINGMARK);
(70726,70726,G_EXTEND);
(70832,70832,G_EXTEND);
(70833,70834,G_SPACINGMARK);
(70835,70840,G_EXTEND);
(70841,70841,G_SPACINGMARK);
(70842,70842,G_EXTEND);
(70843,70844,G_SPACINGMARK);
(70845,70845,G_EXTEND);
(70846,70846,G_SPACINGMARK);
(70847,70848,G_EXTEND);
(70849,70849,G_SPACINGMARK);
(70850,70851,G_EXTEND);
(71087,71087,G_EXTEND);
(71088,71089,G_SPACINGMARK);
(71090,71093,G_EXTEND);
(71096,71099,G_SPACINGMARK);
(71100,71101,G_EXTEND);
(71102,71102,G_SPACINGMARK);
(71103,71104,G_EXTEND);
(71132,71133,G_EXTEND);
(71216,71218,G_SPACINGMARK);
(71219,71226,G_EXTEND);
(71227,71228,G_SPACINGMARK);
(71229,71229,G_EXTEND);
(71230,71230,G_SPACINGMARK);
(71231,71232,G_EXTEND);
(71339,71339,G_EXTEND);
(71340,71340,G_SPACINGMARK);
(71341,71341,G_EXTEND);
(71342,71343,G_SPACINGMARK);
(71344,71349,G_EXTEND);
(71350,71350,G_SPACINGMARK);
(71351,71351,G_EXTEND);
(71453,71455,G_EXTEND);
(71456,71457,G_SPACINGMARK);
(71458,71461,G_EXTEND);
(71462,71462,G_SPACINGMARK);
(71463,71467,G_EXTEND);
(72751,72751,G_SPACINGMARK);
(72752,72758,G_EXTEND);
(72760,72765,G_EXTEND);
(72766,72766,G_SPACINGMARK);
(72767,72767,G_EXTEND);
(72850,72871,G_EXTEND);
(72873,72873,G_SPACINGMARK);
(72874,72880,G_EXTEND);
(72881,72881,G_SPACINGMARK);
(72882,72883,G_EXTEND);
(72884,72884,G_SPACINGMARK);
(72885,72886,G_EXTEND);
(92912,92916,G_EXTEND);
(92976,92982,G_EXTEND);
(94033,94078,G_SPACINGMARK);
(94095,94098,G_EXTEND);
(113821,113822,G_EXTEND);
(113824,113827,G_CONTROL);
(119141,119141,G_EXTEND);
(119142,119142,G_SPACINGMARK);
(119143,119145,G_EXTEND);
(119149,119149,G_SPACINGMARK);
(119150,119154,G_EXTEND);
(119155,119162,G_CONTROL);
(119163,119170,G_EXTEND);
(119173,119179,G_EXTEND);
(119210,119213,G_EXTEND);
(119362,119364,G_EXTEND);
(121344,121398,G_EXTEND);
(121403,121452,G_EXTEND);
(121461,121461,G_EXTEND);
(121476,121476,G_EXTEND);
(121499,121503,G_EXTEND);
(121505,121519,G_EXTEND);
(122880,122886,G_EXTEND);
(122888,122904,G_EXTEND);
(122907,122913,G_EXTEND);
(122915,122916,G_EXTEND);
(122918,122922,G_EXTEND);
(125136,125142,G_EXTEND);
(125252,125258,G_EXTEND);
(127462,127487,G_REGIONAL_INDICATOR);
(127877,127877,G_E_BASE);
(127939,127940,G_E_BASE);
(127946,127947,G_E_BASE);
(127995,127999,G_E_MODIFIER);
(128066,128067,G_E_BASE);
(128070,128080,G_E_BASE);
(128102,128105,G_E_BASE_GAZ);
(128110,128110,G_E_BASE);
(128112,128120,G_E_BASE);
(128124,128124,G_E_BASE);
(128129,128131,G_E_BASE);
(128133,128135,G_E_BASE);
(128139,128139,G_GLUE_AFTER_ZWJ);
(128170,128170,G_E_BASE);
(128373,128373,G_E_BASE);
(128378,128378,G_E_BASE);
(128400,128400,G_E_BASE);
(128405,128406,G_E_BASE);
(128488,128488,G_GLUE_AFTER_ZWJ);
(128581,128583,G_E_BASE);
(128587,128591,G_E_BASE);
(128675,128675,G_E_BASE);
(128692,128694,G_E_BASE);
(128704,128704,G_E_BASE);
(129304,129310,G_E_BASE);
(129318,129318,G_E_BASE);
(129328,129328,G_E_BASE);
(129331,129337,G_E_BASE);
(129340,129342,G_E_BASE);
(917504,917504,G_CONTROL);
(917505,917505,G_CONTROL);
(917506,917535,G_CONTROL);
(917536,917631,G_EXTEND);
(917632,917759,G_CONTROL);
(917760,917999,G_EXTEND);
(918000,921599,G_CONTROL)
].
