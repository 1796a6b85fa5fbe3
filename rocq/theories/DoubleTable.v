(** Certificates for DoubleClear.v: neighbouring fractions p/q <= 10^e/2^k <= P/Q.  Found by a continued
    fraction expansion outside of Coq, checked in DoubleClear.v.  Nothing is assumed about them. *)
From Coq Require Import ZArith List.
Import ListNotations.
Local Open Scope Z_scope.

Record cert : Set := Cert { c_k : Z; c_j : Z; c_p : Z; c_q : Z; c_P : Z; c_Q : Z }.
Record row : Set := Row { r_f : Z; r_certs : list cert }.

(** 10^-1, 10^-2, ..., 10^-339. *)
Definition negative_rows : list row := [
  Row 46 [Cert (-8) 5 128 5 255999999999999949 9999999999999998];
  Row 43 [Cert (-11) 5 512 25 204799999999999529 9999999999999977];
  Row 39 [Cert (-15) 5 4096 125 327679999999998165 9999999999999944];
  Row 36 [Cert (-18) 5 16384 625 262143999999999633 9999999999999986];
  Row 33 [Cert (-21) 5 65536 3125 209715199999993373 9999999999999684];
  Row 29 [Cert (-25) 5 524288 15625 335544319999631673 9999999999989023];
  Row 26 [Cert (-28) 5 2097152 78125 268435455998772901 9999999999954287];
  Row 23 [Cert (-31) 5 8388608 390625 214748364798496289 9999999999929978];
  Row 19 [Cert (-35) 5 67108864 1953125 343597383649500269 9999999999112341];
  Row 16 [Cert (-38) 5 268435456 9765625 274877906924478281 9999999999289804];
  Row 13 [Cert (-41) 5 1073741824 48828125 219902324692302197 9999999960759951];
  Row 9 [Cert (-45) 5 8589934592 244140625 351843720071495345 9999999976784447];
  Row 6 [Cert (-48) 5 34359738368 1220703125 281474950777487293 9999999078668768];
  Row 3 [Cert (-51) 5 137438953472 6103515625 225179866230728281 9999994886854692];
  Row 0 [Cert (-54) 5 549755813888 30517578125 180143742164934981 9999986514682423];
  Row (-4) [Cert (-58) 5 4398046511104 152587890625 288227358884339777 9999895317509131];
  Row (-7) [Cert (-61) 5 17592186044416 762939453125 230574021765570573 9999554212678064];
  Row (-10) [Cert (-64) 5 70368744177664 3814697265625 184431607908730473 9998057498482016];
  Row (-14) [Cert (-68) 5 562949953421312 19073486328125 294829990239391253 9989228622857127];
  Row (-17) [Cert (-71) 5 2251799813685248 95367431640625 234718973506011857 9940735195265063];
  Row (-20) [Cert (-74) 5 9007199254740992 476837158203125 182502143485054301 9661583029773297];
  Row (-24) [Cert (-78) 5 72057594037927936 2384185791015625 301312086786396025 9969580660704084];
  Row (-27) [Cert (-81) 5 227967958794432539 9428533789902104 60262417357279205 2492395165176021];
  Row (-30) [Cert (-84) 5 179758024908609175 9293272072201609 48209933885823364 2492395165176021];
  Row (-34) [Cert (-88) 5 299871168757876209 9689360041411421 12258328904101529 396087969209812];
  Row (-37) [Cert (-91) 5 242348600787121273 9788382033713874 12258328904101529 495109961512265];
  Row (-40) [Cert (-94) 5 43566388595783643 2199540527672336 179732481403757045 9074171390578333];
  Row (-44) [Cert (-98) 5 43566388595783643 1374712829795210 287571970246011272 9074171390578333];
  Row (-47) [Cert (-101) 5 87132777191567286 3436782074488025 176021732132501609 6942833147430784];
  Row (-50) [Cert (-104) 5 34501875326753507 1701073787630329 176021732132501609 8678541434288480];
  Row (-54) [Cert (-108) 5 266429079081807542 8209979863346689 176021732132501609 5424088396430300];
  Row (-57) [Cert (-111) 5 142734570412445390 5497935665131539 176021732132501609 6780110495537875];
  Row (-60) [Cert (-114) 5 114187656329956312 5497935665131539 147474818050012531 7100654203139459];
  Row (-64) [Cert (-118) 5 189357682471941343 5698275482382529 222644844191997562 6699974568637479];
  Row (-67) [Cert (-121) 4 82400505332787781 3099562512755002 231375334105688000 8703372741147379; Cert (-116) 0 2865234233957531 3448900255538895 7230479190802750 8703372741147379];
  Row (-70) [Cert (-124) 5 164801010665575562 7748906281887505 174950638975062981 8226139511517442];
  Row (-74) [Cert (-128) 5 154651382356088143 4544795657660980 201821064122485642 5930988018823113];
  Row (-77) [Cert (-131) 5 154651382356088143 5680994572076225 130526574826770885 4794789104407868];
  Row (-80) [Cert (-134) 5 200920489978685740 9225816442749653 26105314965354177 1198697276101967];
  Row (-84) [Cert (-138) 5 275131932683924741 7895899233417271 208842519722833416 5993486380509835];
  Row (-87) [Cert (-141) 5 13257882592218265 475603213226859 278539010018166534 9992096947021097];
  Row (-90) [Cert (-144) 5 10606306073774612 475603213226859 217552750093962515 9755402707721932];
  Row (-94) [Cert (-148) 5 255636671494284743 7164465503800979 170786222904087847 4786449437666684];
  Row (-97) [Cert (-151) 5 170352092614610225 5967853144384308 170786222904087847 5983061797083355];
  Row (-100) [Cert (-154) 5 34070418522922045 1491963286096077 206159032295442758 9027822980071697];
  Row (-103) [Cert (-157) 5 27256334818337636 1491963286096077 172088613772520713 9419824617469525];
  Row (-107) [Cert (-161) 5 290627270046877921 9942762382998143 72576591500176833 2482945952517758];
  Row (-110) [Cert (-164) 0 130766226318786535 5592117679628511 145153183000353666 6207364881294395; Cert (-163) 4 58189634818609702 4976870477962627 72576591500176833 6207364881294395];
  Row (-113) [Cert (-167) 0 104612981055029228 5592117679628511 118999937736596359 6361176681710866; Cert (-166) 0 52306490527514614 5592117679628511 66693447209081745 7130235683793221; Cert (-165) 0 26153245263757307 5592117679628511 40540201945324438 8668353687957931; Cert (-164) 2 5883144291095088 2515881671299091 20270100972662219 8668353687957931];
  Row (-117) [Cert (-171) 5 246097228716255157 8221999852053681 65645179969330963 2193176505120986];
  Row (-120) [Cert (-174) 5 190342143443565411 7949058809988566 131290359938661926 5482941262802465];
  Row (-123) [Cert (-177) 5 166721430041604017 8703264738892657 119480003237681229 6237147191706556];
  Row (-127) [Cert (-181) 5 171170285476421444 5584691143039379 205065145975891951 6690562566336287];
  Row (-130) [Cert (-184) 5 150494172580925358 6137626854687833 184389033080395865 7519966133808968];
  Row (-133) [Cert (-187) 5 159443010930751356 8128235872012261 36877806616079173 1879991533452242];
  Row (-137) [Cert (-191) 3 292419605391991415 9317026160130503 147511226464316692 4699978833630605; Cert (-187) 1 8568739769859301 4368252805107777 11171587306501270 5695156919199089];
  Row (-140) [Cert (-194) 2 233935684313593132 9317026160130503 205995147542714975 8204230082070882; Cert (-191) 2 27940536770878157 8902368624476968 15271692153760063 4865841847892019];
  Row (-143) [Cert (-197) 5 179478162067385299 8935162756702214 82398059017085990 4102115041035441];
  Row (-147) [Cert (-201) 5 212437385674219695 6610005483197744 131836894427337584 4102115041035441];
  Row (-150) [Cert (-204) 5 42487477134843939 1652501370799436 229935237765442763 8943065609581153];
  Row (-153) [Cert (-207) 5 42487477134843939 2065626713499295 200943181066291786 9769316294980871];
  Row (-157) [Cert (-211) 5 303610994449290779 9225468051682377 267322171819830046 8122802535868279];
  Row (-160) [Cert (-214) 4 114186633253824165 4337067646887664 155795621248726864 5917471504240083; Cert (-209) 0 3538571822662223 4300895803561711 6198654505383206 7534047204918455];
  Row (-163) [Cert (-217) 2 22837326650764833 1084266911721916 189273278630375629 8986286198484011; Cert (-214) 2 22837326650764833 8674135293775328 9385830672068933 3564951639874431];
  Row (-167) [Cert (-221) 3 45674653301529666 1355333639652395 302144978799348401 8965744110094909; Cert (-217) 1 10761196782956720 5109183653900897 12076129867808113 5733485463318263];
  Row (-170) [Cert (-224) 5 182698613206118664 6776668198261975 142643371702623079 5290936716741616];
  Row (-173) [Cert (-227) 5 206731758108216015 9585133858967738 174687564905419547 8099402377447379];
  Row (-177) [Cert (-231) 5 165385406486572812 4792566929483869 225336074945909485 6529827774696322];
  Row (-180) [Cert (-234) 5 195569168005599933 7084046492687431 90134429978363794 3264913887348161];
  Row (-183) [Cert (-237) 5 186388983176276526 8439394077365957 87074368368589325 3942587679687424];
  Row (-187) [Cert (-241) 5 341730202944833118 9670622029408537 17414873673717865 492823459960928];
  Row (-190) [Cert (-244) 5 280232694539337696 9912880270090301 3482974734743573 123205864990232];
  Row (-193) [Cert (-247) 5 225579345525367586 9974483202585417 3482974734743573 154007331237790];
  Row (-196) [Cert (-250) 5 174519726790941501 9645963371235856 6965949469487146 385018328094475];
  Row (-200) [Cert (-254) 5 235523290079418105 8136075327105032 55727595755897168 1925091640472375];
  Row (-203) [Cert (-257) 5 47104658015883621 2034018831776258 222910383023588672 9625458202361875];
  Row (-206) [Cert (-260) 5 94209316031767242 5085047079440645 98585084812612193 5321233809125002];
  Row (-210) [Cert (-264) 5 132768196200643129 4478939535721109 175702845150363967 5927341352844538];
  Row (-213) [Cert (-267) 5 88247847510330045 3721305106071689 174909995280067844 7375743169967967];
  Row (-216) [Cert (-270) 4 70598278008264036 3721305106071689 121961286773869817 6428700132906192; Cert (-265) 0 4610604843090533 7776945423020433 3817754972794410 6439604579512213];
  Row (-220) [Cert (-274) 5 290087219730119446 9556740284988519 137349502167996421 4524892622684963];
  Row (-223) [Cert (-277) 5 30547543512424605 1257961915575889 213375030035315029 8786882042090036];
  Row (-226) [Cert (-280) 5 24438034809939684 1257961915575889 188936995225375345 9725640637036656];
  Row (-230) [Cert (-284) 5 271079076569667610 8721219737138609 308866475614742679 9936924816768191];
  Row (-233) [Cert (-287) 5 216863261255734088 8721219737138609 146219029672942113 5880241218106282];
  Row (-236) [Cert (-290) 5 56515385266233580 2840978519032327 174476722306058903 8770790782149016];
  Row (-240) [Cert (-294) 5 264901338732032631 8322722757875462 174476722306058903 5481744238843135];
  Row (-243) [Cert (-297) 5 244025517471775667 9583552585492721 16810421176017035 660191429952702];
  Row (-246) [Cert (-300) 5 202273874951261739 9929813577236885 6724168470406814 330095714976351];
  Row (-250) [Cert (-304) 5 240834995408375405 7389259388589148 294628343171629917 9039737963470903];
  Row (-253) [Cert (-307) 3 48166999081675081 1847314847147287 215173391053018048 8252392874408775; Cert (-303) 1 7821988259234197 4799858931130267 13448336940813628 8252392874408775];
  Row (-256) [Cert (-310) 5 192667996326700324 9236574235736435 110468476924948723 5295899201109946];
  Row (-260) [Cert (-314) 5 109947006291380770 3294312317590731 275910456995587831 8267030160182798];
  Row (-263) [Cert (-317) 5 87957605033104616 3294312317590731 231931654479035523 8686631541433132];
  Row (-266) [Cert (-320) 5 94345837157160281 4416966749823179 163138745818097902 7637628088307297];
  Row (-270) [Cert (-324) 5 277926925772236311 8132274479501078 79014080059426685 2311989689387339];
  Row (-273) [Cert (-327) 5 246321293748465637 9009348254682678 63211264047541348 2311989689387339];
  Row (-276) [Cert (-330) 4 125117775606742745 5720321597751678 127727280583422647 5839626849185017; Cert (-325) 0 5944279273432742 8696622412536559 1304752488339951 1908884022933424];
  Row (-280) [Cert (-334) 4 100094220485394196 2860160798875839 280478116288193843 8014573761200231; Cert (-329) 0 10554648828164348 9651064424003271 1304752488339951 1193052514333390];
  Row (-283) [Cert (-337) 5 204149350004386141 7291879156046419 196227531937190643 7008924838332776];
  Row (-286) [Cert (-340) 5 45582960841194527 2035185527296837 196227531937190643 8761156047915970];
  Row (-290) [Cert (-344) 5 93945059396871561 2621533651462124 292951729048544711 8174807923750683];
  Row (-293) [Cert (-347) 4 253150395118210081 8830191336616214 159205335721338520 5553274272288559; Cert (-342) 0 8560764625342404 9555513697755563 2779137714482507 3102069693643110];
  Row (-296) [Cert (-350) 5 189468260829674673 8261102034625988 127364268577070816 5553274272288559];
  Row (-299) [Cert (-353) 5 11789541636148151 642552253680932 177678719193526522 9683825289601553];
  Row (-303) [Cert (-357) 5 158648333645428629 5404145866771592 135069250373132327 4600955549670427];
  Row (-306) [Cert (-360) 5 158648333645428629 6755182333464490 203244400485763039 8654064949749121];
  Row (-309) [Cert (-363) 5 176486760381562393 9393419224972928 35676853472267528 1898882616284631];
  Row (-313) [Cert (-367) 5 176486760381562393 5870887015608080 127677669708253002 4247237422527863];
  Row (-316) [Cert (-370) 5 176486760381562393 7338608769510100 66844783690289923 2779515668625843];
  Row (-319) [Cert (-373) 5 176486760381562393 9173260961887625 88773179028544417 4614167861003368];
  Row (-323) [Cert (-377) 5 246869544999082062 8019718996636783 88773179028544417 2883854913127105];
  Row (-326) [Cert (-380) 5 63238546388215058 2567932041754839 209165631251196363 8493603303695182];
  Row (-329) [Cert (-383) 5 184847926721622638 9382665735357269 150794797306003841 7654168498648806];
  Row (-333) [Cert (-387) 5 87560422454896574 2777790743016433 257809383384559395 8178815251802791];
  Row (-336) [Cert (-390) 5 139122299131808453 5516942241721239 206247506707647516 8178815251802791];
  Row (-339) [Cert (-393) 4 124722880820614575 6182410494241627 191848088396453638 9509751756843567; Cert (-388) 0 6035796567863633 9574062894442074 581956293866653 923107016058337];
  Row (-343) [Cert (-397) 4 199556609312983320 6182410494241627 166903512232330723 5170793536247026; Cert (-392) 0 3854260458264841 3821050339430362 6690897394664196 6633245479337711];
  Row (-346) [Cert (-400) 4 159645287450386656 6182410494241627 246726155957524051 9554697167429596; Cert (-395) 0 4988915232824583 6182410494241627 7258224781944067 8994605634148976];
  Row (-349) [Cert (-403) 5 107396766346104219 5198798112911057 177061461151814135 8571084786099026];
  Row (-353) [Cert (-407) 5 321030409383296919 9712654435925956 141649168921451308 4285542393049513];
  Row (-356) [Cert (-410) 5 241731498890479814 9141869611012491 162432588397662709 6142921177117537];
  Row (-359) [Cert (-413) 5 31719564197126842 1499474216947477 182127137908254629 8609668966530196];
  Row (-363) [Cert (-417) 4 174353460594107746 5151365675527503 309005394696761997 9129728646450065; Cert (-412) 0 7981962294326653 7546602208408572 3938909902118384 3724069980533099];
  Row (-366) [Cert (-420) 5 182293765892398445 6732457770560614 150532544699235649 5559455065955673];
  Row (-369) [Cert (-423) 4 72917506356959378 3366228885280307 191688829863032231 8849294336968722; Cert (-418) 0 1621386656486903 2395236532881069 6318918641803796 9334790513168341];
  Row (-373) [Cert (-427) 5 300840788857660207 8680176784001781 319182315717305597 9209385925603808];
  Row (-376) [Cert (-430) 5 275162651254156661 9924104982198679 14673221487716312 529209141602027];
  Row (-379) [Cert (-433) 5 168032235050037259 7575381022049516 75575040333634169 3407142243353217];
  Row (-383) [Cert (-437) 5 336064470100074518 9469226277561895 94066479276914787 2650493749432798];
  Row (-386) [Cert (-440) 4 266118859027710509 9372977200288344 188132958553829574 6626234373581995; Cert (-435) 0 6431004841005229 7248209251449931 4020144700758463 4530994880677188];
  Row (-389) [Cert (-443) 5 62388720379104748 2746742826706349 203730138648605761 8969478673654081];
  Row (-392) [Cert (-446) 5 78179259957184001 4302426788443282 141341418269501013 7778419808684665];
  Row (-396) [Cert (-450) 5 271816324512372399 9349265367492449 40900715316363605 1406801603615756];
  Row (-399) [Cert (-453) 5 228350276405853891 9817784742548650 8180143063272721 351700400903939];
  Row (-402) [Cert (-456) 5 166736172617607049 8960903602360034 32720572253090884 1758502004519695];
  Row (-406) [Cert (-460) 5 238094769303976468 7997455810219407 244012221484164119 8196219363314174];
  Row (-409) [Cert (-463) 1 144040352018423411 6047782745938247 199943738931481416 8394982916408941; Cert (-461) 3 44068482552682703 7401165150935106 49985934732870354 8394982916408941];
  Row (-412) [Cert (-466) 5 187454607593342413 9838256481286556 22361354765223202 1173600085235347];
  Row (-416) [Cert (-470) 4 276900026654235221 9082910513892465 257298188947745300 8439928496349319; Cert (-465) 0 4210580161939160 4419711854513601 6970097220672441 7316288997839869];
  Row (-419) [Cert (-473) 5 122521113285588041 5023691770103592 205838551158196240 8439928496349319];
  Row (-422) [Cert (-476) 5 122521113285588041 6279614712629490 164670840926556992 8439928496349319];
  Row (-426) [Cert (-480) 5 309339335086871354 9909168855241693 90372559027740405 2894933963166016];
  Row (-429) [Cert (-483) 5 243259191042340961 9740502282675745 18074511805548081 723733490791504];
  Row (-432) [Cert (-486) 5 198222255194982385 9921435655373621 18074511805548081 904666863489380];
  Row (-436) [Cert (-490) 5 285099386794822475 8918635355452848 36149023611096162 1130833579361725];
  Row (-439) [Cert (-493) 5 201615971803349143 7883826735671837 144596094444384648 5654167896808625];
  Row (-442) [Cert (-496) 4 11403975471792899 557414709715803 202053187208372925 9876154063421626; Cert (-491) 0 4733439138037717 7403701937768267 1937097195717465 3029866835369162];
  Row (-446) [Cert (-500) 5 154450392159603575 4718361193651472 217668980544863958 6649648838723929];
  Row (-449) [Cert (-503) 4 30890078431920715 1179590298412868 252874353541041532 9656438225362285; Cert (-498) 0 3321847983457982 4059213679473449 8082127488334917 9876154063421626];
  Row (-452) [Cert (-506) 1 6178015686384143 294897574603217 208355374934227538 9945506428393215; Cert (-504) 1 6178015686384143 1179590298412868 48999835890364813 9355711279186781; Cert (-502) 1 6178015686384143 4718361193651472 7616447207803096 5816940383948177];
  Row (-456) [Cert (-510) 4 49424125491073144 1474487873016085 299912130677702685 8947387440058196; Cert (-505) 0 6178015686384143 5897951492064340 8564364040796134 8176120980773913];
  Row (-459) [Cert (-513) 5 257678928099833113 9609286225094974 59982426135540537 2236846860014549];
  Row (-462) [Cert (-516) 5 130614386405683653 6088541238813956 123514696982615267 5757591846295567];
  Row (-466) [Cert (-520) 5 333917653116322789 9728404816813484 72688880304955483 2117728268296039];
  Row (-469) [Cert (-523) 5 142199487625829287 5178575344314074 191718165490493502 6981930676702781];
  Row (-472) [Cert (-526) 4 162006958771694973 7374896846586946 201621901063426345 9178252178975653; Cert (-521) 0 1681365647212791 2449257400517179 6541004278507261 9528327858075298];
  Row (-476) [Cert (-530) 5 81358198346324435 2314747484372928 322595041701482152 9178252178975653];
  Row (-479) [Cert (-533) 3 16271639669264887 578686871093232 265266867642240727 9433988016004649; Cert (-529) 1 16271639669264887 9258989937491712 15562201748310990 8855301144911417];
  Row (-482) [Cert (-536) 3 16271639669264887 723358588866540 215467822047645559 9578659733777957; Cert (-532) 1 3821878270616095 2718436276953223 12449761398648792 8855301144911417];
  Row (-486) [Cert (-540) 4 32543279338529774 904198236083175 357870949867736159 9943259812563076; Cert (-535) 0 3057502616492876 2718436276953223 10156634436279135 9030299223424354];
  Row (-489) [Cert (-543) 5 130173117354119096 4520991180415875 227781930798490147 7911004369639819];
  Row (-492) [Cert (-546) 5 123660256572169487 5368494477721861 221269070016540538 9606010964251791];
  Row (-495) [Cert (-549) 0 68985865317742005 3743626360493413 126231761571000097 6850164855831412; Cert (-548) 0 68985865317742005 7487252720986826 28622948126629046 3106538495337999; Cert (-547) 3 40362917191112959 8761428451297654 14311474063314523 3106538495337999];
  Row (-499) [Cert (-553) 1 110377384508387208 3743626360493413 291797838333580909 9896792575634752; Cert (-551) 0 27594346127096802 3743626360493413 71043069316806493 9638159418591704; Cert (-550) 0 13797173063548401 3743626360493413 29651550126161290 8045439755703169; Cert (-549) 0 13797173063548401 7487252720986826 14825775063080645 8045439755703169; Cert (-548) 0 9168464065653303 9950822129526565 514300999766122 558187034716343];
  Row (-502) [Cert (-556) 5 118244247546703351 5013054577078138 205021042940142130 8692022648310789];
  Row (-505) [Cert (-559) 5 36235830370646499 1920306897192278 164016834352113704 8692022648310789];
  Row (-509) [Cert (-563) 5 174696463926466762 5786241497049603 189573035148407145 6278978624084057];
  Row (-512) [Cert (-566) 4 212611070956148191 8802546527333018 151658428118725716 6278978624084057; Cert (-561) 0 7322076256283198 9700780548483383 839388329517465 1112078281432753];
  Row (-515) [Cert (-569) 5 48762114269937980 2523567903248961 188230013821179201 9741399207541792];
  Row (-519) [Cert (-573) 5 266249396653079969 8611942407962581 188230013821179201 6088374504713620];
  Row (-522) [Cert (-576) 5 175353514558228135 7089848781784176 188230013821179201 7610468130892025];
  Row (-525) [Cert (-579) 3 35070702911645627 1772462195446044 191788808698386772 9692945527323421; Cert (-575) 1 7877977008609514 6370407326950617 6438249631475533 5206193491078490];
  Row (-529) [Cert (-583) 4 70141405823291254 2215577744307555 300727999187621051 9499186026707576; Cert (-578) 0 1863540877148699 1883655290705686 9149417508653668 9248173146284853];
  Row (-532) [Cert (-586) 5 252338297040926567 9963357384952402 4032475178891207 159218762369339];
  Row (-535) [Cert (-589) 5 169145869011677251 8348221231745666 61758589909080693 3048105014530787];
  Row (-539) [Cert (-593) 3 310914524507244983 9590772338675548 292663048829838637 9027769538004525; Cert (-589) 1 9125737838703173 4504022405368184 17190688196485587 8484491464601659];
  Row (-542) [Cert (-596) 5 138966990344823070 5358388970008797 171947534162421913 6630076453335638];
  Row (-545) [Cert (-599) 5 111173592275858456 5358388970008797 116360738024492685 5608401081665149];
  Row (-549) [Cert (-603) 2 180990035090554067 5452143511879929 186177180839188296 5608401081665149; Cert (-600) 2 41357149461162845 9966741605048538 23272147604898537 5608401081665149];
  Row (-552) [Cert (-606) 5 142717169772989562 5374014726987319 147904315521623791 5569336689218844];
  Row (-555) [Cert (-609) 3 173335462027041166 8158683071596741 147904315521623791 6961670861523555; Cert (-605) 1 10122000378391573 7622878058270238 7654573063512901 5764658651450369];
  Row (-559) [Cert (-613) 5 20344917204333900 598506105036593 321239777548664957 9450221208200185];
  Row (-562) [Cert (-616) 5 16275933763467120 598506105036593 268342992817396817 9867631668881304];
  Row (-565) [Cert (-619) 5 13020747010773696 598506105036593 216260004774302033 9940515165955258];
  Row (-569) [Cert (-623) 5 298007175122869108 8561294213197187 197463887320604439 5672838028602149];
  Row (-572) [Cert (-626) 5 139311527609600577 5002761152747353 216848007224272393 7787142996754464];
  Row (-575) [Cert (-629) 5 68079620642825983 3055975403558737 216848007224272393 9733928745943080];
  Row (-579) [Cert (-633) 5 195666595918230530 5489457590044507 216848007224272393 6083705466214425];
  Row (-582) [Cert (-636) 5 156533276734584424 5489457590044507 255981326407918499 8976996230279158];
  Row (-585) [Cert (-639) 2 216202106538584869 9477475967731622 79558439738667260 3487538640234651; Cert (-636) 2 18597808563291767 6522056108814629 19889609934666815 6975077280469302];
  Row (-588) [Cert (-642) 5 120731978852184157 6615536999312551 63646751790933808 3487538640234651];
  Row (-592) [Cert (-646) 4 147502984514494372 5051537819773601 164169249710491209 5622307755236714; Cert (-641) 0 5052370233156689 5536916155842298 5806947481420074 6363860889488659];
  Row (-595) [Cert (-649) 4 26167343863699507 1120191971077622 223669123966184390 9575001503781297; Cert (-644) 0 4750539333851335 6507672827979692 5354201132462043 7334617561626053];
  Row (-598) [Cert (-652) 5 52334687727399014 2800479927694055 167969681177572277 8988220643431731];
  Row (-602) [Cert (-656) 5 213724998107746150 7147895034322529 111248746252023169 3720642732248656];
  Row (-605) [Cert (-659) 5 170979998486196920 7147895034322529 111248746252023169 4650803415310820];
  Row (-608) [Cert (-662) 5 136783998788957536 7147895034322529 111248746252023169 5813504269138525];
  Row (-612) [Cert (-666) 0 272104041512242479 8887055249355788 73677845479457915 2406355597625261; Cert (-665) 4 99213098016392282 6480699651730527 73677845479457915 4812711195250522];
  Row (-615) [Cert (-669) 5 213161765128676147 8702463464069474 58942276383566332 2406355597625261];
  Row (-618) [Cert (-672) 3 151473969630632221 7730025396864736 179572348265176590 9163942927285259; Cert (-668) 1 1372759557238797 1120875489524242 11990049981413989 9790027009077821];
  Row (-622) [Cert (-676) 3 151473969630632221 4831265873040460 287315757224282544 9163942927285259; Cert (-672) 1 7816091018490949 3988710550365288 17957234826517659 9163942927285259];
  Row (-625) [Cert (-679) 3 151473969630632221 6039082341300575 199557811853299591 7956126459025144; Cert (-675) 1 7816091018490949 4985888187956610 8112915046421368 5175232376919971];
  Row (-628) [Cert (-682) 5 122623664297031799 6111069838332292 161090738075165695 8028113956056861];
  Row (-632) [Cert (-686) 5 251496254757164355 7833475626986113 257745180920265112 8028113956056861];
  Row (-635) [Cert (-689) 5 201197003805731484 7833475626986113 207445929968832241 8076773538324548];
  Row (-638) [Cert (-692) 5 119468417050818739 5814282242404976 87977512918013502 4281684680500709];
  Row (-642) [Cert (-696) 5 119468417050818739 3633926401503110 284126121129804090 8642396362304441];
  Row (-645) [Cert (-699) 4 233118865502740375 8863606183031108 227300896903843272 8642396362304441; Cert (-694) 0 5817968598897103 7078714263253344 2739676579072275 3333360664864433];
  Row (-648) [Cert (-702) 1 46623773100548075 2215901545757777 209846991107151963 9973458625155550; Cert (-700) 1 46623773100548075 8863606183031108 40805804501650972 7757557079397773; Cert (-698) 1 5817968598897103 4424196414533340 10201451125412743 7757557079397773];
  Row (-652) [Cert (-706) 2 74598036960876920 2215901545757777 303094537308248113 9003288572919440; Cert (-703) 0 9324754620109615 2215901545757777 42001407945178893 9981065302137764; Cert (-702) 0 9324754620109615 4431803091515554 16338326662534639 7765163756379987; Cert (-701) 0 9324754620109615 8863606183031108 3506786021212512 3333360664864433];
  Row (-655) [Cert (-709) 2 59678429568701536 2215901545757777 243416107739546577 9038209170391523; Cert (-706) 0 7459803696087692 2215901545757777 27081800553003509 8044528536156651; Cert (-705) 0 3729901848043846 2215901545757777 15892095008871971 9441352435039971; Cert (-704) 0 1864950924021923 2215901545757777 6567340388762356 7803197141291057];
  Row (-658) [Cert (-712) 5 34866579848272835 1618275412478229 203847138426533309 9461232316310656];
  Row (-662) [Cert (-716) 5 259633666183769845 7531545610172389 203847138426533309 5913270197694160];
  Row (-665) [Cert (-719) 5 207706932947015876 7531545610172389 203847138426533309 7391587747117700];
  Row (-668) [Cert (-722) 5 125396118672306039 5683648673392964 203847138426533309 9239484683897125];
  Row (-672) [Cert (-726) 5 250792237344612078 7104560841741205 188156934475687855 5330198426122683];
  Row (-675) [Cert (-729) 5 137898076659199365 4883052232584494 150525547580550284 5330198426122683];
  Row (-678) [Cert (-732) 5 55159230663679746 2441526116292247 218312249165580949 9663206890868337];
  Row (-681) [Cert (-735) 5 165942626688866845 9181447329671089 54694295965852139 3026183251790146];
  Row (-685) [Cert (-739) 4 230459938573103155 7969455429524296 218777183863408556 7565458129475365; Cert (-734) 0 464934697827607 514487871503255 8893146522728957 9840986372546262];
  Row (-688) [Cert (-742) 2 46091987714620631 1992363857381074 229820907448945390 9934196644041789; Cert (-739) 2 28887371212157615 9989441929768951 17204616502463016 5949468929279641];
  Row (-691) [Cert (-745) 3 92183975429241262 4980909643452685 138020350694198787 7457553143747237; Cert (-741) 1 11554948484863046 9989441929768951 11427142260031493 9878951358314627];
  Row (-695) [Cert (-749) 5 288275325837346351 9735106777959294 9167275052991505 309580437536819];
  Row (-698) [Cert (-752) 5 233271675519397321 9847030190922975 7333820042393204 309580437536819];
  Row (-701) [Cert (-755) 3 150794579705862961 7956810314009281 180129859875435777 9504712501693376; Cert (-751) 1 11451998900392085 9668398760157276 1833455010598301 1547902187684095];
  Row (-705) [Cert (-759) 3 277297299504467893 9144899376720953 180129859875435777 5940445313558360; Cert (-755) 1 9624219822471621 5078305314229897 14667640084786408 7739510938420475];
  Row (-708) [Cert (-762) 4 185811867628487159 7659788048331363 180129859875435777 7425556641947950; Cert (-757) 0 2841003876525691 3747702502134608 5043420262314787 6653014060476445];
  Row (-711) [Cert (-765) 5 191493875381538541 9867524318393470 110350719026482019 5686283184652669];
  Row (-715) [Cert (-769) 5 70756037618330317 2278750823234384 270683238197841945 8717555033342987];
  Row (-718) [Cert (-772) 5 70756037618330317 2848438529042980 216546590558273556 8717555033342987];
  Row (-721) [Cert (-775) 5 70756037618330317 3560548161303725 144934857399286718 7293335768821497];
  Row (-725) [Cert (-779) 3 172552716014093628 5426941965062611 160455177788003215 5046463237229913; Cert (-775) 1 13808929307403455 6948856876393403 15520320388716497 7810054107463638];
  Row (-728) [Cert (-782) 5 76279609341291699 2998830028405829 204643751571694271 8045293265635742];
  Row (-731) [Cert (-785) 5 132464281523888893 6509568359017679 92274407206499883 4534554935023892];
  Row (-735) [Cert (-789) 5 124426306660411091 3821603546386826 308975121073410857 9489797215166691];
  Row (-738) [Cert (-792) 3 148475309761446561 5700299494180052 196573315963517501 7546889616573091; Cert (-788) 1 16075949726955604 9875067119968935 12024501550517735 7386360489572156];
  Row (-741) [Cert (-795) 3 148475309761446561 7125374367725065 186953714723103313 8971964490118104; Cert (-791) 1 11395992085544382 8750352907197817 2404900310103547 1846590122393039];
  Row (-745) [Cert (-799) 4 200169752673693835 6003878806460302 186953714723103313 5607477806323815; Cert (-794) 0 6608018975295261 6342416002183792 9619601240414188 9232950611965195];
  Row (-748) [Cert (-802) 3 80067901069477534 3001939403230151 253805577841990325 9515785410964311; Cert (-798) 1 6608018975295261 3964010001364870 10104946804426492 6061742610873299];
  Row (-751) [Cert (-805) 5 29306785501079469 1373477901296611 203044462273592260 9515785410964311];
  Row (-755) [Cert (-809) 2 290964818776830667 8522636946783840 302266925730469650 8853686434843997; Cert (-806) 2 29306785501079469 6867389506483055 40608892454718452 9515785410964311];
  Row (-758) [Cert (-812) 5 49151278192454947 1799609748635803 241813540584375720 8853686434843997];
  Row (-761) [Cert (-815) 5 97513986309330091 4462933794505753 193450832467500576 8853686434843997];
  Row (-765) [Cert (-819) 5 332493837542418073 9510802246137541 38374738463268194 1097688160084561];
  Row (-768) [Cert (-822) 4 89523610586444531 3200966681597806 243022564439517307 8689407482020611; Cert (-817) 0 7990375722885560 9142411051514033 3206617785862977 3668941098663154];
  Row (-771) [Cert (-825) 5 179047221172889062 8002416703994515 115113747893095829 5144945411409757];
  Row (-775) [Cert (-829) 3 294160969065984891 8217101322127670 66517609002559370 1858104882558689; Cert (-825) 1 7668667194628387 3427468466344517 17921470112022911 8009902127780478];
  Row (-778) [Cert (-832) 5 267553925464961143 9342324211380243 53214087202047496 1858104882558689];
  Row (-781) [Cert (-835) 4 21582332771763731 942002390926044 212856348808189984 9290524412793445; Cert (-830) 0 1627050070995920 2272503271253073 6651760900255937 9290524412793445];
  Row (-784) [Cert (-838) 4 21582332771763731 1177502988657555 165968612492199241 9055023815061934; Cert (-833) 0 1301640056796736 2272503271253073 5024710829260017 8772526426925465];
  Row (-788) [Cert (-842) 5 93624254259378295 3192508207033463 201838354863403332 6882517884846077];
  Row (-791) [Cert (-845) 0 220563205715278991 9401274407815962 145663802307776355 6208766200782499; Cert (-844) 4 37449701703751318 3192508207033463 108214100604025037 9225024194531535];
  Row (-794) [Cert (-848) 4 162297684792168449 8647209909378703 116531041846221084 6208766200782499; Cert (-843) 0 3112986437356241 5307510766446587 5203954804839806 8872523767962681];
  Row (-798) [Cert (-852) 4 18306657178378946 609610927149051 292210924190284349 9730611694040263; Cert (-847) 0 9153328589189473 9753774834384816 1672774693986852 1782506500758047];
  Row (-801) [Cert (-855) 5 171943459344006335 7157137608915211 98716830630490551 4109082973169956];
  Row (-804) [Cert (-858) 5 137554767475205068 7157137608915211 98716830630490551 5136353716462445];
  Row (-808) [Cert (-862) 4 236271598105695619 7683432078361035 299709887872202253 9746412963479066; Cert (-857) 0 889848995182650 925997960895853 9472920003687067 9857745139492171];
  Row (-811) [Cert (-865) 3 34566661667837797 1405112798310751 219186497398188739 8909791627279404; Cert (-861) 1 1423758392292240 925997960895853 14634044175746437 9517833320430074];
  Row (-814) [Cert (-868) 5 138266646671351188 7025563991553755 99143958148178223 5037673503441353];
  Row (-818) [Cert (-872) 3 221761529410260225 7042550812343842 190463378591721853 6048605568287641; Cert (-868) 1 7824537704634593 3975780976224804 14361559403233443 7297353124195147];
  Row (-821) [Cert (-875) 2 88704611764104090 3521275406171921 247869839537287571 9839600811461221; Cert (-872) 2 15649075409269186 4969726220281005 28703230472782859 9115375404406679];
  Row (-824) [Cert (-878) 2 70963689411283272 3521275406171921 159165227773183481 7897906756611625; Cert (-875) 0 8870461176410409 3521275406171921 17237848950616937 6842847554142264; Cert (-874) 0 8870461176410409 7042550812343842 4183693887103264 3321572147970343; Cert (-873) 0 4686767289307145 7441957328746998 2091846943551632 3321572147970343];
  Row (-828) [Cert (-882) 5 305345093829399622 9469668380905837 131182210730433277 4068354324976884];
  Row (-831) [Cert (-885) 5 139330306479173076 5401314055928953 131182210730433277 5085442906221105];
  Row (-834) [Cert (-888) 5 109834626033590501 5322346268501991 101686530284850702 4927507331367181];
  Row (-838) [Cert (-892) 5 305907333744305443 9264751102736633 39044992964192321 1182521965699944];
  Row (-841) [Cert (-895) 5 229107869809767426 8673490119886661 39044992964192321 1478152457124930];
  Row (-844) [Cert (-898) 3 115070143702422363 5445359402787028 193160129630807005 9140740545599353; Cert (-894) 1 12976448688490496 9825162233343781 258104398769325 195424622862919];
  Row (-848) [Cert (-902) 4 230140287404844726 6806699253483785 269598247407067967 7973719899541569; Cert (-897) 0 10550267340058841 9985213473040428 206483519015460 195424622862919];
  Row (-851) [Cert (-905) 3 192003821924320429 7098454414998231 231461781926543670 8557230222570461; Cert (-901) 1 16662179502916457 9856113943614269 330373630424736 195424622862919];
  Row (-854) [Cert (-908) 5 53126752768394227 2455145351819943 185169425541234936 8557230222570461];
  Row (-858) [Cert (-912) 5 342488686991786600 9892138424878451 5157833447210451 148974270888829];
  Row (-861) [Cert (-915) 2 94286904634409575 3404123799274794 209205143057660954 7553118952993733; Cert (-912) 2 34248868699178660 9892138424878451 5157833447210451 1489742708888290];
  Row (-864) [Cert (-918) 1 37714761853763830 1702061899637397 210979095919620843 9521456934478649; Cert (-916) 0 18857380926881915 3404123799274794 39488714715723719 7128480571495519; Cert (-915) 0 18857380926881915 6808247598549588 10315666894420902 3724356772220725; Cert (-914) 1 13699547479671464 9892138424878451 5157833447210451 3724356772220725];
  Row (-868) [Cert (-922) 1 60343618966022128 1702061899637397 324123381480912333 9142276645869275; Cert (-920) 0 15085904741505532 1702061899637397 82748905616823821 9336116189278748; Cert (-919) 0 7542952370752766 1702061899637397 37491191392307225 8459860980733114; Cert (-918) 0 3771476185376383 1702061899637397 18633810465425310 8409412463279243; Cert (-917) 0 3771476185376383 3404123799274794 9316905232712655 8409412463279243];
  Row (-871) [Cert (-925) 3 241374475864088512 8510309498186985 173443190435022297 6115208435651462; Cert (-921) 0 15085904741505532 8510309498186985 7498238278461445 4229930490366557; Cert (-920) 0 7542952370752766 8510309498186985 7498238278461445 8459860980733114];
  Row (-874) [Cert (-928) 5 54345028343252972 2395101062535523 200615704606648783 8841561075832089];
  Row (-877) [Cert (-931) 2 50992146589980351 2809165534591903 139564912756850569 7688653429465706; Cert (-928) 2 3352881753272621 1477686348620006 20466750665081244 9020132615437603];
  Row (-881) [Cert (-935) 5 114865027900574869 3954958006852617 178207116918693070 6135911659254281];
  Row (-884) [Cert (-938) 3 221789298051790711 9545631253006482 142565693534954456 6135911659254281; Cert (-934) 1 12880734720614167 8870021772254765 4939976971255140 3401801546253797];
  Row (-887) [Cert (-941) 5 63378883613469004 3409719593752201 126720972631587205 6817459675629801];
  Row (-891) [Cert (-945) 3 139411467192421327 4687622124456301 202753556210539528 6817459675629801; Cert (-941) 1 6345247280417061 3413678617501403 12653699965483319 6807562116256796];
  Row (-894) [Cert (-948) 5 210389929704250483 8842784861119227 136866009361184342 5752540900043051];
  Row (-897) [Cert (-951) 2 138902375626173930 7297662880581139 65378455283107789 3434857929235919; Cert (-948) 2 1018183132494794 427947022109301 23632946850821235 9933035527406011];
  Row (-901) [Cert (-955) 3 222243801001878288 7297662880581139 259841781159751291 8532241226280946; Cert (-951) 0 13890237562617393 7297662880581139 9817505032638217 5157927770034634; Cert (-950) 0 2036366264989588 2139735110546505 7781138767648629 8176120429522763];
  Row (-904) [Cert (-958) 3 36929164168801057 1515771133720333 224250248969094126 9204433995939701; Cert (-954) 1 14953298141772812 9820218003790901 334407994535973 219614387235406];
  Row (-907) [Cert (-961) 5 147716656675204228 7578855668601665 96550879630140305 4953707982995508];
  Row (-911) [Cert (-965) 5 301213987810395997 9658936703387585 38620351852056122 1238426995748877];
  Row (-914) [Cert (-968) 4 207000134599892463 8297262405654062 154481407408224488 6192134978744385; Cert (-963) 0 7133624606591593 9150070226375889 1352950146604052 1735385520955739];
  Row (-917) [Cert (-971) 0 185992643723225273 9319014293612739 143977661969890893 7213886866703062; Cert (-970) 4 21007490876667190 2105127426909677 80955189339889323 8112391452677093];
  Row (-921) [Cert (-975) 5 228007625476559653 7140088575326510 160783654671224645 5034961148416833];
  Row (-924) [Cert (-978) 5 163694163608069795 6407630144949721 128626923736979716 5034961148416833];
  Row (-927) [Cert (-981) 5 130955330886455836 6407630144949721 95888091015365757 4691793899283611];
  Row (-931) [Cert (-985) 5 296977901644001751 9081935334728470 31341788431928287 958468944112639];
  Row (-934) [Cert (-988) 4 71932295701571665 2749718305738437 197299449429284813 7542063026301632; Cert (-983) 0 7385993118134195 9034896066045269 5523267398553299 6756321877471674];
  Row (-937) [Cert (-991) 3 57545836561257332 2749718305738437 197299449429284813 9427578782877040; Cert (-987) 1 11817588989014712 9034896066045269 2568870151299621 1963977156908479];
  Row (-941) [Cert (-995) 5 223606566881880425 6677883959336504 210453008155582619 6285060349317327];
  Row (-944) [Cert (-998) 2 44721313376376085 1669470989834126 260434958729441371 9722178878742997; Cert (-995) 2 6576779363148903 1964118050095885 31567754650078279 9427531818481238];
  Row (-947) [Cert (-1001) 1 17888525350550434 834735494917063 207820723824250147 9697576035808890; Cert (-999) 0 8944262675275217 1669470989834126 45772654522836163 8543590637695961; Cert (-998) 0 8944262675275217 3338941979668252 18414195923780473 6874119647861835; Cert (-997) 0 8944262675275217 6677883959336504 4734966624252628 3535177668193583; Cert (-996) 0 6576779363148903 9820590250479425 2367483312126314 3535177668193583];
  Row (-951) [Cert (-1005) 4 143108202804403472 4173677474585315 334935960513877147 9768235827376007; Cert (-1000) 0 8944262675275217 8347354949170630 1999120764347059 1865706678359457];
  Row (-954) [Cert (-1008) 5 265508398882456008 9679270667345191 38365551541894735 1398639588197673];
  Row (-957) [Cert (-1011) 5 211796626723803379 9651469054835561 30692441233515788 1398639588197673];
  Row (-961) [Cert (-1015) 4 85328743071682779 2430243271527409 330868272939809083 9423441212515774; Cert (-1010) 0 8597639987893309 7835805278993438 7673110308378947 6993197940988365];
  Row (-964) [Cert (-1018) 5 277230657568153706 9869739022906567 32042157359288705 1140738667365239];
  Row (-967) [Cert (-1021) 5 219554774321434037 9770511777061421 25633725887430964 1140738667365239];
  Row (-971) [Cert (-1025) 3 290661965094932399 8084304252438334 262131245763104170 7290767280567621; Cert (-1021) 1 15713856388112747 6992898213105213 12816862943715482 5703693336826195];
  Row (-974) [Cert (-1028) 4 185809466789690731 6459996675264107 209704996610483336 7290767280567621; Cert (-1023) 0 579398688879453 644602438139509 8831163909926827 9824995978085214];
  Row (-977) [Cert (-1031) 5 223466648690467311 9711519497058034 9558211928317042 415385302651757];
  Row (-980) [Cert (-1034) 5 135266076732108726 7348071564439559 86749462222688447 4712499038849172];
  Row (-984) [Cert (-1038) 4 160262538719300049 5441222921788219 173498924445376894 5890623798561465; Cert (-1033) 0 5880038130557239 6388437075843978 3678173797759803 3996195490449947];
  Row (-987) [Cert (-1041) 5 233164931646492921 9895500071091268 5294554290430738 224700438386623];
  Row (-990) [Cert (-1044) 2 131386763549698482 6970053981025241 76282490355710717 4046778086479178; Cert (-1041) 2 23336947451403337 9904180853171124 2647277145215369 1123502191933115];
  Row (-994) [Cert (-1048) 5 284815236376992070 9443386449918067 98324199633305823 3260055277686002];
  Row (-997) [Cert (-1051) 4 227852189101593656 9443386449918067 212250294184102651 8796762322066536; Cert (-1046) 0 4581040278693452 6075592618518677 6439814360104101 8540786854211638];
  Row (-1000) [Cert (-1054) 4 12481515933992804 646624127851531 187287262316117043 9702704646880108; Cert (-1049) 0 3120378983498201 5172993022812248 3518491769713599 5832988067092351];
  Row (-1004) [Cert (-1058) 5 237213326052088259 7680750723928895 122357570136864469 3961826306505806];
  Row (-1007) [Cert (-1061) 3 168299872502953985 6811745091843802 244715140273728938 9904565766264515; Cert (-1057) 1 11485575591522379 7437848834846178 9493694906581529 6147943308250259];
  Row (-1010) [Cert (-1064) 1 67319949001181594 3405872545921901 186490510042140703 9434987959012733; Cert (-1062) 0 33659974500590797 6811745091843802 42755293270184156 8652358280259763; Cert (-1061) 2 12282327865498719 4971131903427841 21377646635092078 8652358280259763];
  Row (-1014) [Cert (-1068) 4 191589724595589279 6058105665207448 155380142818274194 4913151399194609; Cert (-1063) 0 1274803638362144 1289905526595919 9095318769593359 9203065942079805];
  Row (-1017) [Cert (-1071) 4 191589724595589279 7572632081509310 162622059173737211 6427677815496471; Cert (-1066) 0 7241916355463017 9159634128102712 3128206052492486 3956580207741943];
  Row (-1020) [Cert (-1074) 4 49905011087858683 2465635153383747 183559404839743826 9069039590238287; Cert (-1069) 0 394201700191218 623236856309413 6059311254889363 9579832091200151];
  Row (-1024) [Cert (-1075) 2 33155134555053391 8190406483447942 16749876532805292 4137769283470793];
  Row (-1027) [Cert (-1075) 0 1537140249057652 3797240949496217 3418899008672497 8445802733928874];
  Row (-1030) [Cert (-1075) 0 392218372605857 9689081178615771 376351751922969 9297123568865314];
  Row (-1034) [Cert (-1075) 0 7933310341444 1959788048752285 34017136609085 8403349284218746];
  Row (-1037) [Cert (-1075) 0 3966655170722 9798940243761425 2836772151095 7007758324676067];
  Row (-1040) [Cert (-1075) 0 281264294704 6948151270750723 286090135515 7067365378601411];
  Row (-1044) [Cert (-1075) 0 26196093146 6471294839347971 31021933957 7663435917854851];
  Row (-1047) [Cert (-1075) 0 3998155295 9876755889988873 275895172 681551631693309];
  Row (-1050) [Cert (-1075) 0 385788301 9530237304578111 137947586 3407758158466545];
  Row (-1054) [Cert (-1075) 0 30162493 7451125792113539 19405650 4793832500109593];
  Row (-1057) [Cert (-1075) 0 2994583 7397602919601088 1940565 4793832500109593];
  Row (-1060) [Cert (-1075) 0 138896 3431187097238289 388113 9587665000219186];
  Row (-1064) [Cert (-1075) 0 5715 1411792582991362 35158 8685179988243273];
  Row (-1067) [Cert (-1075) 0 1143 2823585165982724 3863 9542877949423677];
  Row (-1070) [Cert (-1075) 0 327 8077973309504381 272 6719292783440953];
  Row (-1073) [Cert (-1075) 0 11 2717361052126856 37 9140214448063061];
  Row (-1077) [Cert (-1075) 0 4 9881312916824931 3 7410984687618698]
].

(** 10^0, 10^1, ..., 10^293. *)
Definition positive_rows : list row := [
  Row 49 [Cert (-5) 5 32 1 320000000000000001 10000000000000000];
  Row 53 [Cert (-1) 5 20 1 200000000000000001 10000000000000000];
  Row 56 [Cert 2 5 25 1 250000000000000001 10000000000000000];
  Row 59 [Cert 5 5 125 4 312499999999999969 9999999999999999];
  Row 63 [Cert 9 5 625 32 195312499999999668 9999999999999983];
  Row 66 [Cert 12 5 3125 128 244140624999999292 9999999999999971];
  Row 69 [Cert 15 5 15625 512 305175781249990448 9999999999999687];
  Row 73 [Cert 19 5 78125 4096 190734863281217556 9999999999998299];
  Row 76 [Cert 22 5 390625 16384 238418579101476264 9999999999996383];
  Row 79 [Cert 25 5 1953125 65536 298023223875759691 9999999999959955];
  Row 83 [Cert 29 5 9765625 524288 186264514914401602 9999999999533239];
  Row 86 [Cert 32 5 48828125 2097152 232830643626061338 9999999998805643];
  Row 89 [Cert 35 5 244140625 8388608 291038304534445022 9999999998869839];
  Row 93 [Cert 39 5 1220703125 67108864 181898939739168909 9999999966167107];
  Row 96 [Cert 42 5 6103515625 268435456 227373675059303946 9999999983114663];
  Row 99 [Cert 45 5 30517578125 1073741824 284217079043146299 9999999463055035];
  Row 102 [Cert 48 5 152587890625 4294967296 355271226853071731 9999996030443455];
  Row 106 [Cert 52 5 762939453125 34359738368 222044191595159357 9999981385277427];
  Row 109 [Cert 55 5 3814697265625 137438953472 277555229722520308 9999981033224599];
  Row 112 [Cert 58 5 19073486328125 549755813888 346934736385708202 9999712956854763];
  Row 116 [Cert 62 5 95367431640625 4398046511104 216778211371943994 9997130464836911];
  Row 119 [Cert 65 5 476837158203125 17592186044416 270821673814665686 9991556212945571];
  Row 122 [Cert 68 5 2384185791015625 70368744177664 338787342892142984 9999237455589511];
  Row 126 [Cert 72 5 11920928955078125 562949953421312 202088865859564748 9543376866963483];
  Row 129 [Cert 75 5 59604644775390625 2251799813685248 217415221835984937 8213714851711391];
  Row 132 [Cert 78 5 298023223876953125 9007199254740992 99057289040539203 2993822858553427];
  Row 136 [Cert 82 5 99482967418206961 4810701116950052 148692353155225744 7190320996344367];
  Row 139 [Cert 85 5 136656055707013397 5286625092828915 185865441444032180 7190320996344367];
  Row 142 [Cert 88 5 136656055707013397 4229300074263132 232331801805040225 7190320996344367];
  Row 146 [Cert 92 5 186167051858239897 9218545899641317 23918936524506707 1184408368832494];
  Row 149 [Cert 95 5 176799803764893423 7003761792587510 148197243193713479 5870697633958743];
  Row 152 [Cert 98 5 176799803764893423 5603009434070008 141046603050918493 4469945275441241];
  Row 156 [Cert 102 5 181760503805385596 9216352469867297 30792500673482757 1561365278450743];
  Row 159 [Cert 105 5 197905379201004711 8027995927441567 183257753923141069 7433817656228702];
  Row 162 [Cert 108 5 7323812638931821 237671308485146 308006225709750342 9995373488511911];
  Row 166 [Cert 112 5 69626981929179032 3615239595401375 172261882592877991 8944348318322957];
  Row 169 [Cert 115 5 17406745482294758 723047919080275 234666575601778667 9747668186401928];
  Row 172 [Cert 118 4 8703372741147379 289219167632110 295103452176009471 9806494257128171; Cert 123 0 8703372741147379 9255013364227520 7862080889696018 8360398418967621];
  Row 176 [Cert 122 4 8703372741147379 462750668211376 183351736017362497 9748650423601749; Cert 127 0 1613728999800523 2745617618105403 5475914741546333 9316786146553226];
  Row 179 [Cert 125 5 43516863705736895 1851002672845504 222081232012575049 9446290909744641];
  Row 182 [Cert 128 5 283983842458262461 9663469407900045 66399523929577986 2259458716518029];
  Row 186 [Cert 132 5 29496258158579374 1605929046641989 165998809823944965 9037834866072116];
  Row 189 [Cert 135 5 134617856689486387 5863434611727631 195495067982524339 8515011130171284];
  Row 192 [Cert 138 5 165056462336005363 5751378296759566 241152976452302803 8402954815203219];
  Row 195 [Cert 141 5 311088796142936366 8671889971126575 203104719394154083 5661733244785114];
  Row 199 [Cert 145 5 155544398071468183 6937511976901260 214994799724825558 9589088495344913];
  Row 202 [Cert 148 5 155544398071468183 5550009581521008 190971300620297856 6814083704584409];
  Row 205 [Cert 151 5 263345970987861902 7517198589516731 251030048381617111 7165641147050570];
  Row 209 [Cert 155 5 101833719772009411 4650942130696503 149196328609607700 6814083704584409];
  Row 212 [Cert 158 5 176431884076813261 6446387186390966 186495410762009625 6814083704584409];
  Row 215 [Cert 161 5 168884239062915988 4936491838196707 181463647419411443 5304188356390150];
  Row 219 [Cert 165 5 196284473124028214 9179842523308827 181463647419411443 8486701370224240];
  Row 222 [Cert 168 5 154623767695329546 5785161975219131 181463647419411443 6789361096179392];
  Row 225 [Cert 171 3 129387765633538108 3872776833515583 260379408929366675 7793560217139653; Cert 175 1 7685765936523517 3680750633081635 16975409535337493 8129606067899062];
  Row 229 [Cert 175 4 161734707041922635 7745553667031166 146363175168875601 7009403540414839; Cert 180 0 939869343632391 1440345578113189 5806027249258735 8897710869634854];
  Row 232 [Cert 178 5 192477770788016703 7374283136211056 77024470552699559 2950991441489201];
  Row 235 [Cert 181 5 28863325058829286 884658338944371 298532377587009937 9149990749123691];
  Row 239 [Cert 185 5 121535997617350074 5960107980904841 170913682587626933 8381582606032198];
  Row 242 [Cert 188 5 248767152153899237 9759604515577771 55072841889475948 2160611446231911];
  Row 245 [Cert 191 5 262535362626268224 8239805901708599 68841052361844935 2160611446231911];
  Row 249 [Cert 195 5 164084601641417640 8239805901708599 167291813346695519 8400861854996217];
  Row 252 [Cert 198 5 205105752051772050 8239805901708599 85249512525986699 3424767123313534];
  Row 255 [Cert 201 5 196454070301822387 6313790390350573 273051901077859423 8775549757985094];
  Row 259 [Cert 205 5 158155154913803869 8132657130453300 126951221691925082 6528087932861171];
  Row 262 [Cert 208 4 237766604571808287 9781150785042491 79611449658004418 3275025080679851; Cert 213 0 7129903279748862 9385830672068933 5109183653900897 6725747989347950];
  Row 265 [Cert 211 5 158155154913803869 5204900563490112 178591889529407457 5877475362424907];
  Row 269 [Cert 215 5 188465949301523344 9923890511216769 5109183653900897 269029919573918];
  Row 272 [Cert 218 5 201525831382680509 8489258853328530 113535874826092497 4782689265812101];
  Row 275 [Cert 221 2 293064217069626003 9876244577809219 91538385686945494 3084837495146395; Cert 224 2 16054563213065567 4328301679886463 29714629630407180 8011048300699117];
  Row 279 [Cert 225 5 171811201752273329 9264041672120695 45769192843472747 2467869996117116];
  Row 282 [Cert 228 5 171811201752273329 7411233337696556 100164291492409266 4320678330541255];
  Row 285 [Cert 231 5 254240494268967107 8773517012635355 50082145746204633 1728271332216502];
  Row 289 [Cert 235 5 63081402874998784 3482974734743573 124247922981025597 6860221188244870];
  Row 292 [Cert 238 5 78851753593748480 3482974734743573 203099676574774077 8971151685339469];
  Row 295 [Cert 241 5 98564691992185600 3482974734743573 262238491770085437 9266706189117719];
  Row 298 [Cert 244 5 336162010764224637 9503149792140319 212956145773992637 6020175057396746];
  Row 302 [Cert 248 5 77003665618895000 3482974734743573 197555412650213637 8935685144886079];
  Row 305 [Cert 251 5 96254582023618750 3482974734743573 255308161864384887 9238332956755007];
  Row 308 [Cert 254 5 296099599473525256 8571497811343005 55463144414478381 1605548341855859];
  Row 312 [Cert 258 4 37012449934190657 1714299562268601 203290822204010591 9415787610309670; Cert 263 0 6439604579512213 9544387431986025 534936337403288 792849870296123];
  Row 315 [Cert 261 5 185062249670953285 6857198249074404 97088267968740969 3597457084330535];
  Row 318 [Cert 264 5 304144013065247333 9015672499672725 97088267968740969 2877965667464428];
  Row 322 [Cert 268 5 190833183828711388 9050920161826945 22662165847307189 1074831167529883];
  Row 325 [Cert 271 5 47708295957177847 1810184032365389 256435717108069486 9729876767215699];
  Row 328 [Cert 274 4 216180935809641038 6561999673275575 208727421150891639 6335754187880248; Cert 279 0 7453514658749399 7239855532650464 6289809577879445 6109508702484921];
  Row 332 [Cert 278 3 108090467904820519 5249599738620460 125796191557588900 6109508702484921; Cert 282 1 3435831059157211 2669872847027077 10834061534453959 8418797727777222];
  Row 335 [Cert 281 3 108090467904820519 4199679790896368 157245239446986125 6109508702484921; Cert 285 1 15329597676961868 9529706411958279 1849557618824187 1149784976150029];
  Row 338 [Cert 284 5 149847008971689377 4657649966757931 240758321580723841 7483419230069610];
  Row 342 [Cert 288 4 183938751200077301 9147701504799697 56819570380646540 2825769263311679; Cert 293 0 3279403447406426 5218955315064241 3641829715918403 5795732930476397];
  Row 345 [Cert 291 5 155528966009754031 6187853498515086 226553428985562206 9013622761826765];
  Row 348 [Cert 294 5 218907343285213423 6967533339934113 113276714492781103 3605449104730706];
  Row 352 [Cert 298 5 192499686087105343 9803219649813218 126480543091835143 6441135414609811];
  Row 355 [Cert 301 5 175994900338287793 7170158872809893 93470971594200043 3808074637606486];
  Row 358 [Cert 304 5 284623332693453627 9276607494412553 26104503611078084 850813008001913];
  Row 362 [Cert 308 5 145574729298111574 7591448597130425 178205358811959179 9293074613134251];
  Row 365 [Cert 311 5 72787364649055787 3036579438852170 190757620758202693 7958121190285907];
  Row 368 [Cert 314 5 72787364649055787 2429263551081736 256643867110017313 8565437078056341];
  Row 372 [Cert 318 5 68002143003699543 3631292396768551 159930394234180306 8540231218348235];
  Row 375 [Cert 321 5 209987956067793934 8970631037206749 79965197117090153 3416092487339294];
  Row 378 [Cert 324 5 264924372268077273 9054000394625570 67450806658686746 2305184777365803];
  Row 382 [Cert 328 5 24074338905340102 1316415380484425 168627016646716865 9220739109463212];
  Row 385 [Cert 331 5 12037169452670051 526566152193770 222954245647736321 9753136707729219];
  Row 388 [Cert 334 5 12037169452670051 421252921755016 281702099422837914 9858449938167973];
  Row 391 [Cert 337 4 196815804108745014 5510214530375729 333445760954139773 9335417373731394; Cert 342 0 3102069693643110 2779137714482507 9555513697755563 8560764625342404];
  Row 395 [Cert 341 5 88852388356616944 3980133393033463 136629956845394759 6120324549369064];
  Row 398 [Cert 344 5 111065485445771180 3980133393033463 203269248112857467 7284339675315329];
  Row 401 [Cert 347 5 138831856807213975 3980133393033463 286568362197185852 8215551776072341];
  Row 405 [Cert 351 4 176879064227551682 8113437780070175 181331388518930633 8317665772074507; Cert 356 0 3579578879632699 5254245892009527 4452324291378951 6535295744138624];
  Row 408 [Cert 354 3 88439532113775841 3245375112028070 232229641012886980 8521893764078839; Cert 358 1 7595530465138524 4459606684033441 12484227462390601 7329934952114710];
  Row 411 [Cert 357 3 88439532113775841 2596300089622456 290287051266108725 8521893764078839; Cert 361 1 9494413081423155 4459606684033441 12484227462390601 5863947961691768];
  Row 415 [Cert 361 5 126417184439468461 5937922817009306 157890238064705372 7416238949985171];
  Row 418 [Cert 364 5 165889743955644804 6233586043604479 197362797580881715 7416238949985171];
  Row 421 [Cert 367 5 207362179944556005 6233586043604479 155890361591970514 4686273951267241];
  Row 425 [Cert 371 5 175007930157413318 8417558042578823 188244611379113201 9054217949215929];
  Row 428 [Cert 374 5 236038532792720211 9082413800475218 50370323150203271 1938175571170607];
  Row 431 [Cert 377 5 143204427971461741 4408235748658330 197528021861239048 6080469016670379];
  Row 435 [Cert 381 5 143204427971461741 7053177197853328 123455013663274405 6080469016670379];
  Row 438 [Cert 384 5 128392367240321239 5058916849572893 232097966595408308 9145125517962837];
  Row 441 [Cert 387 5 70367875591469162 2218108376065747 290122458244260385 9145125517962837];
  Row 445 [Cert 391 5 175919688978672905 8872433504262988 98918567907866032 4988915232824583];
  Row 448 [Cert 394 5 200649330955639413 8095729849975307 123648209884832540 4988915232824583];
  Row 451 [Cert 397 5 169737278484431278 5478800833415329 154560262356040675 4988915232824583];
  Row 455 [Cert 401 4 119714450799128157 6182652519625798 87114528892281295 4499029632233837; Cert 406 0 3724069980533099 6154546722059975 5127751011824134 8474326032091451];
  Row 458 [Cert 404 5 236621539535674244 9776255065899703 51707244922852363 2136336430371927];
  Row 461 [Cert 407 5 273432504536394211 9037709459252506 265984364575328013 8791527590370107];
  Row 465 [Cert 411 5 74875248600031476 3959738400136361 131130147297397457 6934749324743126];
  Row 468 [Cert 414 5 93594060750039345 3959738400136361 149848959447405326 6339747139821773];
  Row 471 [Cert 417 5 84259270236871004 2851844788018899 290363128381642311 9827649491624647];
  Row 475 [Cert 421 5 105324087796088755 5703689576037798 176778790529647782 9573226466111057];
  Row 478 [Cert 424 5 202180829326545078 8759072784467569 79922048999191459 3462460049251515];
  Row 481 [Cert 427 5 212765012158585618 7374088764766963 79922048999191459 2769968039401212];
  Row 485 [Cert 431 5 59806367309671742 3316466043099693 173074326538433593 9597558800469694];
  Row 488 [Cert 434 5 221101489715978216 9808662397767325 71585571441798861 3175730311567939];
  Row 491 [Cert 437 5 55275372428994554 1961732479553465 247377112351005197 8779456287164826];
  Row 494 [Cert 440 4 27637686214497277 784692991821386 328247075625291584 9319636160205099; Cert 445 0 7122243987916553 6470903417874154 10257721113290362 9319636160205099];
  Row 498 [Cert 444 5 138188431072486385 6277543934571088 96306256882156002 4374944805869455];
  Row 501 [Cert 447 5 273241385019598961 9930120985620503 48153128441078001 1749977922347782];
  Row 504 [Cert 450 5 160697256730338481 4672039563187314 200731449467864243 5835975626289221];
  Row 508 [Cert 454 4 90357176549550681 4203206075790614 185578505746233224 8632681239889735; Cert 459 0 3975271061895340 5917452180187651 6407347385461271 9537757593123763];
  Row 511 [Cert 457 5 266207377001520181 9906679311250668 46394626436558306 1726536247977947];
  Row 514 [Cert 460 5 214294284764737126 6379822471669393 330280850856132891 9832894967625287];
  Row 518 [Cert 464 5 208201745919987794 9917503334029853 4419711854513601 210529008096958];
  Row 521 [Cert 467 3 67519427970794552 2572981889477453 224656843184951661 8561061700820191; Cert 471 0 8439928496349319 5145963778954906 15269243884458662 9309910148580109; Cert 472 0 805306554119988 982017409329703 7634621942229331 9309910148580109];
  Row 524 [Cert 470 4 84399284963493190 2572981889477453 258416557170348937 7878042116447134; Cert 475 0 9245235050469307 9019155973791612 8238601857819322 8037138564461909];
  Row 528 [Cert 474 5 51444877532215902 2509343310271543 159553334876517073 7782584247638269];
  Row 531 [Cert 477 5 195527641885744316 7629851657544085 66915448055204561 2611165037000999];
  Row 534 [Cert 480 5 48881910471436079 1525970331508817 285695329804586726 8918689816495179];
  Row 538 [Cert 484 5 197426675141751753 9861062990679518 23491438607714321 1173349830695509];
  Row 541 [Cert 487 5 66975247741223679 2676222496553209 184432440779795284 7369621819335245];
  Row 544 [Cert 490 5 288768128511169574 9230965622345787 46108110194948821 1473924363867049];
  Row 548 [Cert 494 4 47623043612633402 2435762870015977 182917507362110703 9355632040920415; Cert 499 0 4938077031710813 8082127488334917 4059213679473449 6643695966915964];
  Row 551 [Cert 497 5 119057609031583505 4871525740031954 150987558196847104 6178015686384143];
  Row 554 [Cert 500 5 275862107612378786 9030044321327955 232298277679218833 7604030003856049];
  Row 558 [Cert 504 5 137931053806189393 7224035457062364 117959029841286800 6178015686384143];
  Row 561 [Cert 507 5 78951538885545993 3308022091096234 226400326187154493 9486037777480377];
  Row 564 [Cert 510 3 189538129361752368 6353227084707473 184310984127010625 6178015686384143; Cert 514 0 11846133085109523 6353227084707473 18465120935477303 9903071796241666; Cert 515 0 8536639159925633 9156609457880753 3309493925183890 3549844711534193];
  Row 568 [Cert 514 2 118461330851095230 6353227084707473 113234185616353487 6072888847390145; Cert 517 2 18728025282443211 8035256508611441 13500880047701468 5792550610072817];
  Row 571 [Cert 517 5 91459570755692294 3924071545751415 204693756372045781 8782382623663531];
  Row 574 [Cert 520 4 45729785377846147 1569628618300566 260220571351960644 8931807846673949; Cert 525 0 9016776661943535 9903735572932843 645902068128472 709437920953897];
  Row 578 [Cert 524 5 180335533238870700 9903735572932843 9662678730072007 530658674694337];
  Row 581 [Cert 527 5 119155802809651371 5235075048439546 202890401039657074 8913929922047993];
  Row 584 [Cert 530 3 110300501664739954 3876816003785417 176324497604922823 6197411832739735; Cert 534 1 15342162169895485 8627883128032697 2718436276953223 1528751308246438];
  Row 587 [Cert 533 5 275751254161849885 7753632007570834 226037875883386354 6355780736881311];
  Row 591 [Cert 537 5 203415395275195885 9151483278260357 31652779831614823 1424031278200906];
  Row 594 [Cert 540 5 144648351498493208 5206083711316033 149186867385020177 5369430845145230];
  Row 597 [Cert 543 5 329997306758136687 9501628387432217 149186867385020177 4295544676116184];
  Row 601 [Cert 547 5 211317637291780157 9735166294448799 29390823849230961 1354002256366534];
  Row 604 [Cert 550 5 45481703360637299 1676232807616453 237917525967429403 8768474640699042];
  Row 607 [Cert 553 5 326253680397643274 9619290084222203 141699614664033351 4177882979326198];
  Row 611 [Cert 557 5 184554065733609923 8706251367833608 65493000948319604 3089601558346997];
  Row 614 [Cert 560 5 250047066681929527 9436682340944484 81866251185399505 3089601558346997];
  Row 617 [Cert 563 5 167068737215097269 5044089092897291 247822910119064021 7482194806394190];
  Row 621 [Cert 567 3 197351552054084801 9533405976733805 50471358064979220 2438105713496899; Cert 571 1 8329909585725584 6438249631475533 12617839516244805 9752422853987596];
  Row 624 [Cert 570 3 197351552054084801 7626724781387044 63089197581224025 2438105713496899; Cert 574 1 10412386982156980 6438249631475533 6370407326950617 3938988504304757];
  Row 627 [Cert 573 4 33565588618215194 1037723813578029 315445987906120125 9752422853987596; Cert 578 0 9248173146284853 9149417508653668 1883655290705686 1863540877148699];
  Row 631 [Cert 577 5 83913971545537985 4150895254312116 192145358563006311 9504677734916395];
  Row 634 [Cert 580 5 152928804072674059 6051830801295395 192145358563006311 7603742187933116];
  Row 637 [Cert 583 5 152928804072674059 4841464641036316 201949497185589374 6393376027674037];
  Row 641 [Cert 587 4 12988513869969843 657910650879719 193149410084697203 9783648489582892; Cert 592 0 1728457856549383 2801665150744662 5630028006710230 9125737838703173];
  Row 644 [Cert 590 5 200902390493319956 8141089816185937 135959821143470741 5509447212667061];
  Row 647 [Cert 593 5 286636614013460708 9292211659845211 35508625896810763 1151121843659274];
  Row 651 [Cert 597 5 18075263803277207 937544857041623 177543129484053815 9208974749274192];
  Row 654 [Cert 600 4 94092757830025773 3904393635346409 191901954473691284 7963001477872735; Cert 605 0 5764658651450369 7654573063512901 1858219406819869 2467427314878672];
  Row 657 [Cert 603 5 278561834676437581 9247173359087448 47975488618422821 1592600295574547];
  Row 661 [Cert 607 5 182420857008601177 9689064783946291 19152195361170976 1017245860216695];
  Row 664 [Cert 610 5 232201349721436237 9866476705631026 4788048840292744 203449172043339];
  Row 667 [Cert 613 5 290854948015022351 9886983250529543 5985061050365930 203449172043339];
  Row 671 [Cert 617 5 178200438016455104 9692059951833977 14962652625914825 813796688173356];
  Row 674 [Cert 620 5 223088395894199579 9706760013083236 74475414755943426 3240486691444165];
  Row 677 [Cert 623 5 278438184400711100 9692059951833977 37237707377971713 1296194676577666];
  Row 680 [Cert 626 5 144084960856121201 4012323472891061 330273497745979766 9197102179201725];
  Row 684 [Cert 630 5 221390388288398972 9864067381622467 165136748872989883 7357681743361380];
  Row 687 [Cert 633 5 276737985360498715 9864067381622467 165136748872989883 5886145394689104];
  Row 690 [Cert 636 5 248837676238621507 7095669507911301 109336130629235467 3117747520977938];
  Row 694 [Cert 640 5 87188466005866275 3977921986933363 144211517031581977 6579564828338046];
  Row 697 [Cert 643 5 202888457524590401 7405332315655254 86361521272219914 3152154499616155];
  Row 700 [Cert 646 5 312907720948981196 9136786532001429 43180760636109957 1260861799846462];
  Row 704 [Cert 650 4 164588451509465213 7689472372309250 190246127345007499 8888183385540473; Cert 655 0 1466952150873915 2193123599075047 5494077163401568 8213758216324333];
  Row 707 [Cert 653 4 164588451509465213 6151577897847400 114366320549160464 4274499962154923; Cert 658 0 7241327894346052 8660747160305017 7147895034322529 8548999924309846];
  Row 710 [Cert 656 4 164588451509465213 4921262318277920 307546352195915793 9195762280432843; Cert 661 0 9051659867932565 8660747160305017 3527231087149503 3374901075325870];
  Row 714 [Cert 660 4 164588451509465213 7874019709244672 171642913683764219 8211509816777259; Cert 665 0 6098191303351541 9335727375370191 3527231087149503 5399841720521392];
  Row 717 [Cert 663 5 245119061720623068 9381325629587089 87585072385456861 3352101948217421];
  Row 720 [Cert 666 5 306398827150778835 9381325629587089 26305306955301094 805416432656519];
  Row 724 [Cert 670 5 193629323299545122 9485674603660165 86464196895932619 4235780111428747];
  Row 727 [Cert 673 5 96814661649772561 3794269841464066 167753161414945267 6574425302125461];
  Row 730 [Cert 676 5 295240528948310932 9256632959324969 35469249882586353 1112062184264558];
  Row 734 [Cert 680 5 92980573414323423 4664330028183335 183089514356741819 9184605862283268];
  Row 737 [Cert 683 5 92980573414323423 3731464022546668 205616749592346418 8251739856646601];
  Row 740 [Cert 686 5 307658044962020539 9877460496245776 4913900690924893 157762362310653];
  Row 744 [Cert 690 4 58727095970317751 3016723690499465 142023695395259967 7295546279484154; Cert 695 0 3333360664864433 5479353158144550 3539357131626672 5817968598897103];
  Row 747 [Cert 693 4 58727095970317751 2413378952399572 221574941221813272 9105580493783833; Cert 698 0 3333360664864433 4383482526515640 4424196414533340 5817968598897103];
  Row 750 [Cert 696 5 286968758521859889 9434341683272506 283635397856995456 9324754620109615];
  Row 754 [Cert 700 5 158484502252819893 8336500201390820 35454424732124432 1864950924021923];
  Row 757 [Cert 703 5 202802533167975433 8534151085134579 44318030915155540 1864950924021923];
  Row 760 [Cert 706 5 291438594998286513 9811242346542740 55397538643944425 1864950924021923];
  Row 764 [Cert 710 4 140300209332181611 7557101241374317 136687483887540514 7362506150801067; Cert 715 0 3612725444641097 6227042898344000 2239325808875024 3859794520482567];
  Row 767 [Cert 713 5 176278443026387288 7596020259488967 172665717581746191 7440344187030367];
  Row 770 [Cert 716 5 220348053782984110 7596020259488967 216735328338343013 7471479401522087];
  Row 774 [Cert 720 5 138620714975525343 7645836602675719 135007989530884246 7446571229928711];
  Row 777 [Cert 723 5 209737435185608563 9254710072309666 31945634660400513 1409608096886939];
  Row 780 [Cert 726 4 60420767461502269 2132863633839321 280569708225007103 9904159655226398; Cert 731 0 8709113055239101 9837862734385277 411590297202604 464934697827607];
  Row 783 [Cert 729 5 326930688767636419 9232568286098971 351757540227761493 9933682036840658];
  Row 787 [Cert 733 5 157258631518786941 7105609128582502 109662880084549813 4955032065774625];
  Row 790 [Cert 736 5 169157569377346223 6114602715427577 109662880084549813 3964025652619700];
  Row 793 [Cert 739 5 238862681742820232 6907407845951517 109662880084549813 3171220522095760];
  Row 797 [Cert 743 5 149289176089262645 6907407845951517 109662880084549813 5073952835353216];
  Row 800 [Cert 746 5 169102324091619061 6259308281000534 119569454085728021 4425853270402233];
  Row 803 [Cert 749 5 156719106590146301 4640755622680767 251522125672928802 7448056234763233];
  Row 807 [Cert 753 5 148979595651725826 7058517994169567 110282040959623451 5225062983571266];
  Row 810 [Cert 756 5 247176138161152682 9368784826176983 17896121566880269 678321594594593];
  Row 813 [Cert 759 5 283810772238705991 8605885911922399 124430460024369112 3773057430100257];
  Row 817 [Cert 763 5 190487927220429157 9241748542955530 77769037515230695 3773057430100257];
  Row 820 [Cert 766 5 190487927220429157 7393398834364424 144833278699145658 5621407138691363];
  Row 823 [Cert 769 5 59035643935428164 1833078106007497 303047552812435981 9409736171375229];
  Row 827 [Cert 773 5 73794554919285205 3666156212014994 129385409930432429 6427942073495685];
  Row 830 [Cert 776 4 189282251096930828 7522921456112405 129385409930432429 5142353658796548; Cert 781 0 3144069598066423 3998699466302046 6367898597751027 8098838759788367];
  Row 833 [Cert 779 2 47320562774232707 1504584291222481 268362547458300489 8532740305406344; Cert 782 2 31520455382282411 8017686898040947 15800107391950296 4018987431738901];
  Row 837 [Cert 783 5 78841018156515118 4010872245564159 157761795714648417 8025802084215689];
  Row 840 [Cert 786 4 138011661474710547 5616844181024771 216932439032843846 8828788051945995; Cert 791 0 1846590122393039 2404900310103547 6903762784804778 8991091775440835];
  Row 843 [Cert 789 5 290796043928565406 9467930751660343 108466219516421923 3531515220778398];
  Row 847 [Cert 793 4 136165071352317508 7093364539307565 90000318292491533 4688464229204018; Cert 798 0 2097732609508429 3496927829131231 3964010001364870 6608018975295261];
  Row 850 [Cert 796 2 34041267838079377 1418672907861513 211712716595902026 8823146561785481; Cert 799 2 16087495223111468 5363582516829649 17953772614967909 5985800746062455];
  Row 853 [Cert 799 5 170206339190396885 5674691631446052 206113884420332703 6871851780658543];
  Row 857 [Cert 803 5 96235652316603823 5133605748837775 94080055902682397 5018617364841838];
  Row 860 [Cert 806 4 141658982957503952 6045338514609393 187082313598404081 7983792430148566; Cert 811 0 7121338734823781 9724966802479377 577449233340072 788570075579803];
  Row 863 [Cert 809 4 177073728696879940 6045338514609393 257911805077156057 8805169349962610; Cert 814 0 8420599509838943 9199399578027147 9142411051514033 9987969653606950];
  Row 867 [Cert 813 5 166487694562015727 9094286133136701 18284822103028066 998796965360695];
  Row 870 [Cert 816 5 228799809849001641 9998437150315703 9142411051514033 399518786144278];
  Row 873 [Cert 819 2 146338460214512232 5115933961988509 192050515472082397 6714009106565621; Cert 822 0 18292307526814029 5115933961988509 27419747730756136 7668667194628387; Cert 823 1 4582433661435961 2563200729348631 13709873865378068 7668667194628387];
  Row 876 [Cert 822 2 182923075268140290 5115933961988509 338388975686594629 9463954454843304; Cert 825 2 29729678120939024 6651760900255937 32002181392192097 7160214047442162];
  Row 880 [Cert 826 5 150920893875948193 6753451529693182 153193397147201266 6855142159130427];
  Row 883 [Cert 829 3 190355494798375046 6814465907355529 192627998069628119 6895818410905325; Cert 833 1 11045029698178538 6326350886056753 13317532969431611 7627990942853489];
  Row 886 [Cert 832 5 141630369463154748 4056138542993399 334258367532782867 9572793271717659];
  Row 890 [Cert 836 0 184832979949285777 8469462325972807 192627998069628119 8826647565958816; Cert 837 4 106882798745862357 9795219852225434 3897509060171171 357185239986009];
  Row 893 [Cert 839 3 90467735444557303 3316347882391921 200423016189970461 7347066244755860; Cert 843 1 8872523767962681 5203954804839806 14180034534409268 8316941242196047];
  Row 896 [Cert 842 5 289148253869597271 8479630398224591 163190423353189244 4785761131343093];
  Row 900 [Cert 846 5 83377718177352669 3912247639773817 203988029191486555 9571522262686186];
  Row 903 [Cert 849 5 11536281335142863 433044131327053 255380652194763263 9586372720516526];
  Row 906 [Cert 852 5 275173528825858204 8263479594006823 72497374050047963 2177101022899537];
  Row 910 [Cert 856 5 206919212819736511 9942076623662036 1851995921791706 88984899518265];
  Row 913 [Cert 859 5 259407599939846217 9971235440989351 925997960895853 35593959807306];
  Row 916 [Cert 862 0 217410064042553336 6685530990800801 222040053847032601 6827906830030025; Cert 863 0 108705032021276668 6685530990800801 113335021825755933 6970282669259249; Cert 864 0 54352516010638334 6685530990800801 58982505815117599 7255034347717697; Cert 865 0 27176258005319167 6685530990800801 31806247809798432 7824537704634593; Cert 866 1 11273134100419951 5546524276967009 15903123904899216 7824537704634593];
  Row 920 [Cert 866 0 135881290026595835 6685530990800801 86158763820436766 4239119937247239; Cert 867 4 92801908116377452 9131942044354363 43079381910218383 4239119937247239];
  Row 923 [Cert 869 5 228683198142973287 9001201610382386 225361625995002944 8870461176410409];
  Row 926 [Cert 872 5 172342791644222551 5426869053023827 281702032493753680 8870461176410409];
  Row 930 [Cert 876 5 31491775397345711 1586621543709796 176063770308596050 8870461176410409];
  Row 933 [Cert 879 5 207555545705941761 8365666176096164 116301940032774182 4687628088362327];
  Row 936 [Cert 882 3 132853257861164426 4283792088110931 290754850081935455 9375256176724654; Cert 886 1 9254776874214203 4774656259304873 11434370411273602 5899136089116515];
  Row 940 [Cert 886 5 172051958895080637 8876377827680603 22868740822547204 1179827217823303];
  Row 943 [Cert 889 5 234940996157085448 9696722141355749 28585926028184005 1179827217823303];
  Row 946 [Cert 892 4 146056424106726729 4822550630800942 290549451230550106 9593480381848019; Cert 897 0 195424622862919 206483519015460 9398939604451671 9930816783012461];
  Row 950 [Cert 896 3 195424622862919 10324175950773 189151339826210934 9992761838717099; Cert 900 1 195424622862919 165186815212368 11699818349848859 9889520079209369];
  Row 953 [Cert 899 4 182228537043398303 7701627162950425 181251413929083708 7660330459147333; Cert 904 0 6030527853151839 8155890904784437 5053404738837244 6834396383085493];
  Row 956 [Cert 902 4 182228537043398303 6161301730360340 226564267411354635 7660330459147333; Cert 907 0 4767176668442528 5157833447210451 6316755923546555 6834396383085493];
  Row 960 [Cert 906 4 182228537043398303 9858082768576544 118824100001671859 6428070113075265; Cert 911 0 2979485417776580 5157833447210451 3933167589325291 6808767455168428];
  Row 963 [Cert 909 4 198079646303829914 8572468745961491 118824100001671859 5142456090460212; Cert 914 0 3724356772220725 5157833447210451 6167781652657726 8541714032461013];
  Row 966 [Cert 912 5 277335192605987969 9601985121170216 108931961576793408 3771476185376383];
  Row 970 [Cert 916 5 127553745437897033 7065928586044303 68082475985495880 3771476185376383];
  Row 973 [Cert 919 5 144574364434271003 6407038105910719 85103094981869850 3771476185376383];
  Row 976 [Cert 922 5 263769145926342664 9351472376041777 212757737454674625 7542952370752766];
  Row 979 [Cert 925 5 329711432407928330 9351472376041777 80873164491503293 2293772946185502];
  Row 983 [Cert 929 3 143860078275848947 6528392604099267 182741966911121804 8292858724527761; Cert 933 1 3401801546253797 2469988485627570 10936440452001936 7940757749359027];
  Row 986 [Cert 932 4 242034664823917443 8786856421653275 235231061731409849 8539857573090518; Cert 937 0 3401801546253797 3951981577004112 6835275282501210 7940757749359027];
  Row 989 [Cert 935 4 242034664823917443 7029485137322620 112512828546324229 3267743720098553; Cert 940 0 10221240733758199 9499473622950190 6827357235002806 6345247280417061];
  Row 993 [Cert 939 5 20442481467516398 949947362295019 201149701888884647 9347281495126154];
  Row 996 [Cert 942 2 115906712045079622 4308881015427473 180707220421368249 6717867306264908; Cert 945 2 32276534695981751 9599150567998937 1711788088437204 509091566247397];
  Row 999 [Cert 945 3 289766780112699055 8617762030854946 177283644244493841 5272475531762447; Cert 949 1 20631711080138536 9817505032638217 2139735110546505 1018183132494794];
  Row 1003 [Cert 949 5 170864438912854326 8130505911071477 60521038155195617 2879865825772958];
  Row 1006 [Cert 952 4 231385477068049943 8808297389475548 133497666961007007 5081940173141845; Cert 957 0 6392506115734441 7787122427203379 5843470147645926 7118306438131433];
  Row 1009 [Cert 955 4 255857429594810677 7791909354847179 133497666961007007 4065552138513476; Cert 960 0 1735385520955739 1691187683255065 9402518806247598 9163049826497671];
  Row 1013 [Cert 959 5 201619090361731798 9824206731339537 97338774138954421 4742984597344262];
  Row 1016 [Cert 962 5 199883704840776059 7791717877741427 95603388617998682 3726740170545207];
  Row 1019 [Cert 965 3 171644393883887041 5352731253423695 239008471544996705 7453480341090414; Cert 969 1 15864964292570943 7915983811110517 4210254853819354 2100749087666719];
  Row 1023 [Cert 969 3 171644393883887041 8564370005477912 42102548538193540 2100749087666719; Cert 973 1 8702777783689509 6947741882244301 10525637134548385 8402996350666876]
].
