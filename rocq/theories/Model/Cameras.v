(** The cameras that come with the package: src/sorcha/modules/data and lines 556-591 of
    modules/PPFootprintFilter.py.  Numbers are kept as the decimals of the files; the names of
    detectors, which pandas may turn into numbers, are kept as text. *)
From Coq Require Import String List ZArith Reals.
Import ListNotations.
Open Scope string_scope.
Open Scope list_scope.
Open Scope Z_scope.

(** modules/data/LSST_detector_corners_100123.csv, lines 2-757, in units of 10^-19. *)
Definition lsst_corners : list (string * (Z * Z)) :=
  [("0", ((-144549995864540670), (-306744015335768570))); ("0", ((-144578174287810260), (-267326018208852000)));
   ("0", ((-183319149778724540), (-267292699961917000))); ("0", ((-183282900769004380), (-306706107820169040)));
   ("1", ((-103661554209310700), (-306748179193694900))); ("1", ((-103683408834165850), (-267326500989835750)));
   ("1", ((-142432423190316060), (-267303157521862200))); ("1", ((-142402485985151980), (-306721388794837900)));
   ("2", ((-62768386326808060), (-306806249586274520))); ("2", ((-62772825290558990), (-267382129127285530)));
   ("2", ((-101527588210555910), (-267357886276863100))); ("2", ((-101515055988784740), (-306779706241779200)));
   ("3", ((-144598309909357550), (-265836864744425100))); ("3", ((-144622965398720940), (-226403681098924050)));
   ("3", ((-183371146806184730), (-226375872436951240))); ("3", ((-183339563742134570), (-265804452500443700)));
   ("4", ((-103681437757070850), (-265867248045451970))); ("4", ((-103693637218634750), (-226430386204894140)));
   ("4", ((-142449873154147710), (-226404158767574900))); ("4", ((-142430734572502600), (-265837564653299380)));
   ("5", ((-62735551317302995), (-265956414629386770))); ("5", ((-62730114772512680), (-226517111527740730)));
   ("5", ((-101492104587955450), (-226487401219604250))); ("5", ((-101490591798916660), (-265924399458894600)));
   ("6", ((-144640176122619520), (-224924000010107250))); ("6", ((-144665791847805940), (-185477937763311800)));
   ("6", ((-183419984488996500), (-185460067798280740))); ("6", ((-183388588168042600), (-224901513633350560)));
   ("7", ((-103746493751413880), (-224940671250352660))); ("7", ((-103753924477712860), (-185490923233027070)));
   ("7", ((-142516183290589140), (-185466617790893100))); ("7", ((-142502961919225810), (-224912899933925360)));
   ("8", ((-62767048790323505), (-225000245764867820))); ("8", ((-62779916768586040), (-185548026918617680)));
   ("8", ((-101547940360210700), (-185540513488191320))); ("8", ((-101529274507443800), (-224990417650346200)));
   ("9", ((-21484233547550940), (-306804477308826040))); ("9", ((-21495787095872805), (-267379090219311200)));
   ("9", ((-60254027709333300), (-267378199566080600))); ("9", ((-60234376084660360), (-306802439760008980)));
   ("10", (19439432204908758, (-306788185839458260))); ("10", (19439470824933378, (-267362762577263050)));
   ("10", ((-19319920848809213), (-267366724964979780))); ("10", ((-19311859865885162), (-306792149206472800)));
   ("11", (60363038502515790, (-306824862745674700))); ("11", (60373721954134660, (-267400639242594620)));
   ("11", (21615490849462094, (-267410385614374900))); ("11", (21612906459204580, (-306835757808582750)));
   ("12", ((-21521872910679330), (-265908249358245420))); ("12", ((-21540256826535280), (-226467660893107200)));
   ("12", ((-60305724198903630), (-226475281583384670))); ("12", ((-60280388613169880), (-265914717694008680)));
   ("13", (19421903682718617, (-265887788423294360))); ("13", (19425466872445693, (-226447160305381500)));
   ("13", ((-19341159792803943), (-226447089368149550))); ("13", ((-19337770115597850), (-265887718682600860)));
   ("14", (60366923367091430, (-265932654391561800))); ("14", (60368243012556490, (-226493232779022940)));
   ("14", (21602778441313203, (-226509221225550740))); ("14", (21608411946940890, (-265949793417962100)));
   ("15", ((-21570870252089866), (-224987594046588900))); ("15", ((-21578282672901398), (-185534107291052100)));
   ("15", ((-60349793988428440), (-185532768472742580))); ("15", ((-60336580160233270), (-224985100623692100)));
   ("16", (19434284034389653, (-224972965415849470))); ("16", (19429338125516813, (-185519443962676760)));
   ("16", ((-19343327986077030), (-185527163273808550))); ("16", ((-19332579596925761), (-224980684992905670)));
   ("17", (60387649277022120, (-224959248383450640))); ("17", (60397436391255210, (-185506911559538600)));
   ("17", (21625923862463780, (-185511627687725870))); ("17", (21621937565446093, (-224965120046236000)));
   ("18", (101497227697601290, (-306771748640879380))); ("18", (101509164162744950, (-267349924611990600)));
   ("18", (62754397596015265, (-267374744196657470))); ("18", (62750554209367770, (-306798868102558970)));
   ("19", (142382449190663170, (-306801472284402060))); ("19", (142403594645773130, (-267383278060004400)));
   ("19", (103654587242329020, (-267415260345204000))); ("19", (103641527445791410, (-306836899148834400)));
   ("20", (183289651260409440, (-306711523762307200))); ("20", (183328228672617260, (-267298116809442830)));
   ("20", (144587257836655000, (-267329152739949750))); ("20", (144556750875949550, (-306747149616867530)));
   ("21", (101550051972722300, (-265872452701694620))); ("21", (101562027518855140, (-226435433536555760)));
   ("21", (62800036875272200, (-226454884058001520))); ("21", (62795008487398565, (-265894211594696480)));
   ("22", (142454752744200650, (-265855465235155140))); ("22", (142480446162727400, (-226422063559301480)));
   ("22", (103724220574367320, (-226441865747698850))); ("22", (103705466150120560, (-265878725195597060)));
   ("23", (183393119831787700, (-265802257872850100))); ("23", (183413707802674100, (-226373694513735750)));
   ("23", (144665530929645580, (-226412319253427270))); ("23", (144651871797914780, (-265845485765472850)));
   ("24", (101514184018827740, (-224927978841382200))); ("24", (101532369137686890, (-185478055792439700)));
   ("24", (62764335348490790, (-185486028907689630))); ("24", (62751946381640300, (-224938266152642370)));
   ("25", (142459927312612550, (-224957584876836900))); ("25", (142475909036876140, (-185511309255764130)));
   ("25", (103713649853295880, (-185532900053977100))); ("25", (103703459775033570, (-224982640742204250)));
   ("26", (183426794786631130, (-224922615037700800))); ("26", (183439659467209380, (-185481194477984200)));
   ("26", (144685467466129900, (-185517283870981240))); ("26", (144678386223281670, (-224963319148808460)));
   ("27", ((-267617237091625500), (-183728990998506950))); ("27", ((-267665477573236080), (-144290751428736450)));
   ("27", ((-306386517827197430), (-144277153816368040))); ("27", ((-306333688833977760), (-183707321740368720)));
   ("28", ((-226733867062374820), (-183711954959974500))); ("28", ((-226763046411183750), (-144266366243815100)));
   ("28", ((-265499018776821880), (-144243022441552130))); ("28", ((-265465236185298480), (-183681683209383700)));
   ("29", ((-185769719175814300), (-183741637573370100))); ("29", ((-185803212195726030), (-144289902144801000)));
   ("29", ((-224551837974114900), (-144279794522699860))); ("29", ((-224513731135214530), (-183725748579973300)));
   ("30", ((-267645766985623380), (-142744491924172700))); ("30", ((-267674049220553780), (-103298056875557030)));
   ("30", ((-306398713039455760), (-103281084740989280))); ("30", ((-306366985671252500), (-142719436930980500)));
   ("31", ((-226728476795858070), (-142750967246003400))); ("31", ((-226750463900133070), (-103297169164839750)));
   ("31", ((-265490058680681980), (-103280606628637730))); ("31", ((-265464616252195600), (-142727466703787600)));
   ("32", ((-185792266613499600), (-142772945195309070))); ("32", ((-185805544863311100), (-103313000527786840)));
   ("32", ((-224557803986177650), (-103294489429248660))); ("32", ((-224541061055965100), (-142748645169377480)));
   ("33", ((-267707953320618540), (-101878654272757350))); ("33", ((-267738292363999600), (-62426377224306580)));
   ("33", ((-306465338197185780), (-62427628377632015))); ("33", ((-306432699572160360), (-101871811735569500)));
   ("34", ((-226800223210186360), (-101811724505858380))); ("34", ((-226824959980019660), (-62352069911145456)));
   ("34", ((-265566945365687700), (-62352053038887585))); ("34", ((-265539903735013060), (-101804759668577670)));
   ("35", ((-185803553731051020), (-101866950581636260))); ("35", ((-185822104654233540), (-62401136150714630)));
   ("35", ((-224576777838702240), (-62399253878510150))); ("35", ((-224555914373938900), (-101859272097856130)));
   ("36", ((-144599550513969610), (-183801946851853380))); ("36", ((-144619297604124930), (-144345275131283130)));
   ("36", ((-183378353059936100), (-144330722672980260))); ("36", ((-183353980402511700), (-183782770489289320)));
   ("37", ((-103654801705568530), (-183786609568182930))); ("37", ((-103669771370221620), (-144326231481123470)));
   ("37", ((-142436899915265370), (-144316024363741540))); ("37", ((-142417298129437760), (-183772930908507570)));
   ("38", ((-62728766273102360), (-183859069128089430))); ("38", ((-62728383376674220), (-144396229010563470)));
   ("38", ((-101501279051141660), (-144379975994987880))); ("38", ((-101497022314078700), (-183840499459967000)));
   ("39", ((-144651478432604090), (-142870950324652180))); ("39", ((-144659264082252980), (-103406067651750050)));
   ("39", ((-183421941323961600), (-103388797374026400))); ("39", ((-183410681478116200), (-142849048563985420)));
   ("40", ((-103710919749812300), (-142817200432149200))); ("40", ((-103723156415144540), (-103348598548039240)));
   ("40", ((-142493910173938200), (-103342347540636370))); ("40", ((-142478196321832300), (-142807471123250640)));
   ("41", ((-62739550495960710), (-142858698570246200))); ("41", ((-62745623054629935), (-103387616847247560)));
   ("41", ((-101522156539940180), (-103381954117434840))); ("41", ((-101512601708020310), (-142850714372740830)));
   ("42", ((-144691782432367910), (-101849134543538620))); ("42", ((-144696585430656370), (-62378364062576210)));
   ("42", ((-183461687077418130), (-62367230047748745))); ("42", ((-183454566347125300), (-101833362737496420)));
   ("43", ((-103728013633245550), (-101961080186444500))); ("43", ((-103720818330288210), (-62486612629690850)));
   ("43", ((-142494000357024160), (-62467913517884320))); ("43", ((-142498870777298860), (-101938899775305820)));
   ("44", ((-62765442341112110), (-101916637092156850))); ("44", ((-62772090757672910), (-62439671328495035)));
   ("44", ((-101551054773420560), (-62438823034592006))); ("44", ((-101542081262714650), (-101913463943794460)));
   ("45", ((-21539304389979605), (-183792136500602400))); ("45", ((-21549185987130466), (-144328014118748820)));
   ("45", ((-60325569315385800), (-144330950301892640))); ("45", ((-60311047348098110), (-183793916399083960)));
   ("46", (19355746475194552, (-183839288212709860))); ("46", (19361893548204404, (-144375143838563550)));
   ("46", ((-19415639106478042), (-144371380096915900))); ("46", ((-19417143379679740), (-183835524071068900)));
   ("47", (60305730131379930, (-183837476816960600))); ("47", (60311490121035220, (-144374521245642250)));
   ("47", (21535109377536837, (-144380192183205250))); ("47", (21533991345927550, (-183844302818910700)));
   ("48", ((-21627551682480736), (-142863908779237780))); ("48", ((-21632022361406434), (-103391562677400250)));
   ("48", ((-60412038018914650), (-103391002428132160))); ("48", ((-60404082659415480), (-142862188620848630)));
   ("49", (19323741942373104, (-142832199477274140))); ("49", (19326070284206706, (-103359813497508200)));
   ("49", ((-19455105864612274), (-103359227345711690))); ("49", ((-19453949600798368), (-142831611540894710)));
   ("50", (60334861620861920, (-142876049275691050))); ("50", (60340521824730620, (-103404862607855070)));
   ("50", (21560502989581543, (-103407666955113770))); ("50", (21558327954216500, (-142880011356860560)));
   ("51", ((-21589639966625730), (-101911777617967200))); ("51", ((-21601792648894965), (-62433544729925510)));
   ("51", ((-60384243764698840), (-62442373303683810))); ("51", ((-60369764636228010), (-101919445580236250)));
   ("52", (19340226588958990, (-101860145977093930))); ("52", (19341425672694090, (-62381872314671200)));
   ("52", ((-19442186494576278), (-62381831477835380))); ("52", ((-19441059920186762), (-101860103715848420)));
   ("53", (60317400285296975, (-101861671057551850))); ("53", (60307712438385320, (-62384592257984680)));
   ("53", (21525254566287203, (-62399493283401360))); ("53", (21537268214086730, (-101877729564101360)));
   ("54", (101497067689100600, (-183750498809090200))); ("54", (101528866416373520, (-144289951343057900)));
   ("54", (62755973108008350, (-144279141213770070))); ("54", (62728809599536240, (-183742008700353530)));
   ("55", (142502498934841040, (-183751983423047420))); ("55", (142537222250564100, (-144295079048938220)));
   ("55", (103770116431011560, (-144290447147434970))); ("55", (103740023196012950, (-183750827309474040)));
   ("56", (183437639095273300, (-183780994286332940))); ("56", (183459536454640450, (-144328958375086990)));
   ("56", (144700498084273010, (-144345960660176470))); ("56", (144683226529089080, (-183802622525535040)));
   ("57", (101534451942631340, (-142806279176462560))); ("57", (101546650204623400, (-103337512488746100)));
   ("57", (62770116621099820, (-103340576278738130))); ("57", (62761399195694870, (-142811665306176950)));
   ("58", (142497367629042900, (-142798311402601750))); ("58", (142518291613873500, (-103333187545912780)));
   ("58", (103747543034945380, (-103334321425238760))); ("58", (103730095481274020, (-142802924620995360)));
   ("59", (183441301605896150, (-142805103232264840))); ("59", (183476429104100700, (-103344844278159820)));
   ("59", (144713771373854960, (-103338657387919140))); ("59", (144682113920906030, (-142803550965963520)));
   ("60", (101537091481790940, (-101934854757594910))); ("60", (101554158129063270, (-62460216411433480)));
   ("60", (62775197394015275, (-62453116430399200))); ("60", (62760455895045660, (-101930080041528520)));
   ("61", (142489035428372080, (-101896508378870160))); ("61", (142517826341843700, (-62425513595507414)));
   ("61", (103744653275364750, (-62411131453112430))); ("61", (103718182850404320, (-101885609560799440)));
   ("62", (183465427857539240, (-101858147917388600))); ("62", (183478550235348440, (-62392018127574120)));
   ("62", (144713454351582600, (-62397261995079945))); ("62", (144702649673743160, (-101868030289891250)));
   ("63", (224628878814406260, (-183695778021428120))); ("63", (224640608781920060, (-144249852995360080)));
   ("63", (185891993309249800, (-144285894821332470))); ("63", (185884880213743400, (-183737601233471370)));
   ("64", (265551770952793980, (-183728069801794700))); ("64", (265585493648427540, (-144289436406205800)));
   ("64", (226849555165724700, (-144312875037873720))); ("64", (226820437001112600, (-183758438780784250)));
   ("65", (306452756365388980, (-183608407638930300))); ("65", (306486542291900740, (-144178255893303350)));
   ("65", (267765514583170360, (-144210557482313330))); ("65", (267736318200058820, (-183648781901348600)));
   ("66", (224618789289973940, (-142833669265502640))); ("66", (224624271800113320, (-103379548287213140)));
   ("66", (185872036274745130, (-103409163946358750))); ("66", (185870022497512300, (-142869074943961970)));
   ("67", (265571780929759050, (-142751919801965220))); ("67", (265599721990080400, (-103305083564783100)));
   ("67", (226860167239869900, (-103319216395027760))); ("67", (226835681731952100, (-142772993873405770)));
   ("68", (306488684503977320, (-142703897129680330))); ("68", (306511157358696250, (-103265574891976880)));
   ("68", (267786531981924170, (-103291658491801900))); ("68", (267767505659441650, (-142738066107997770)));
   ("69", (224681481495550600, (-101879790981693300))); ("69", (224700225681158940, (-62419795885549220)));
   ("69", (185945587403860030, (-62423780281351180))); ("69", (185929156638656450, (-101889574973881970)));
   ("70", (265566667771530430, (-101820209787062130))); ("70", (265567648752698880, (-62367519317861720)));
   ("70", (226825658810965450, (-62393162266981960))); ("70", (226826987680590400, (-101852799666706590)));
   ("71", (306525452003101540, (-101863296299325860))); ("71", (306532828863592000, (-62419140506359385)));
   ("71", (267805800441642160, (-62442733263146570))); ("71", (267800727991465630, (-101894983613263040)));
   ("72", ((-267717438594705580), (-60622073231631620))); ("72", ((-267711537332340520), (-21166257235365590)));
   ("72", ((-306439828842849440), (-21148272002746407))); ("72", ((-306444581482568600), (-60595990465583950)));
   ("73", ((-226828519887739870), (-60649672379937715))); ("73", ((-226839075036381450), (-21186483749727238)));
   ("73", ((-265582287083383250), (-21186471096281533))); ("73", ((-265570582407242230), (-60642707176920200)));
   ("74", ((-185869151314106140), (-60747839113530520))); ("74", ((-185858653830780520), (-21278496089178450)));
   ("74", ((-224614547294554740), (-21259590404917060))); ("74", ((-224623887352544370), (-60723132864059430)));
   ("75", ((-267735295600729960), (-19681786768782857))); ("75", ((-267730318115086720), 19775198901015134));
   ("75", ((-306458622448001970), 19776021741120084)); ("75", ((-306463600381494700), (-19672863779886937)));
   ("76", ((-226852413960276600), (-19770293887638518))); ("76", ((-226857114333726600), 19694061219287283));
   ("76", ((-265600342802418470), 19685978389822256)); ("76", ((-265595642048389400), (-19771422195393810)));
   ("77", ((-185867113993130600), (-19755719622582815))); ("77", ((-185859816676587320), 19714805310236897));
   ("77", ((-224615733289378060), 19719079287316165)); ("77", ((-224623029148489000), (-19745643408642830)));
   ("78", ((-267742490859129900), 21227080205430244)); ("78", ((-267722038608780680), 60682895060472080));
   ("78", ((-306449168648154250), 60682684184845810)); ("78", ((-306470766657060200), 21234968068367067));
   ("79", ((-226855255826038940), 21183239377109845)); ("79", ((-226849118585969460), 60646424570479935));
   ("79", ((-265591175762484140), 60635118319063350)); ("79", ((-265598463087746500), 21178886072332880));
   ("80", ((-185876898801534750), 21201500446551406)); ("80", ((-185863968780640670), 60670852879294600));
   ("80", ((-224618706348477200), 60669183796640560)); ("80", ((-224632788796816430), 21205632753024915));
   ("81", ((-144656106436152150), (-60686147746976575))); ("81", ((-144666429417423540), (-21211826687220032)));
   ("81", ((-183432767796095730), (-21215226248685456))); ("81", ((-183421289447613300), (-60684907062086700)));
   ("82", ((-103729575605479630), (-60681494199230460))); ("82", ((-103739939738016420), (-21203462670302624)));
   ("82", ((-142514355202158480), (-21208725460622416))); ("82", ((-142502834064634450), (-60683272196981250)));
   ("83", ((-62755027396855760), (-60654125212127640))); ("83", ((-62767246681859520), (-21173602253950095)));
   ("83", ((-101547446885007640), (-21182515466322735))); ("83", ((-101534070077229310), (-60660712135122590)));
   ("84", ((-144618397327160290), (-19761992436615233))); ("84", ((-144607427816496300), 19713506000514360));
   ("84", ((-183373800088566450), 19721967744993764)); ("84", ((-183384767885062800), (-19748890975290430)));
   ("85", ((-103710188392659680), (-19717329964151390))); ("85", ((-103710186705894720), 19761877662382680));
   ("85", ((-142484629418045300), 19760133369611695)); ("85", ((-142484631734571250), (-19715589603285922)));
   ("86", ((-62754471286180050), (-19708350436592973))); ("86", ((-62747600541204030), 19773346092983573));
   ("86", ((-101527824418494050), 19778928713714900)); ("86", ((-101534695807131700), (-19700441587131895)));
   ("87", ((-144685493465184970), 21216154830344287)); ("87", ((-144683062796136200), 60690472758311270));
   ("87", ((-183448241543747800), 60681476401097140)); ("87", ((-183451828442249350), 21211799155343280));
   ("88", ((-103745477987532660), 21271830959848255)); ("88", ((-103747305810733690), 60749857084457750));
   ("88", ((-142520560564729710), 60739646985528600)); ("88", ((-142519892497396240), 21265105650425543));
   ("89", ((-62776332923561430), 21196176551124654)); ("89", ((-62782272687942810), 60676697100616910));
   ("89", ((-101561313910068630), 60665443271532250)); ("89", ((-101556533037308710), 21187249035153010));
   ("90", ((-21634498669543005), (-60675729695877124))); ("90", ((-21633842404781320), (-21193939746764028)));
   ("90", ((-60417530875652810), (-21192035912397373))); ("90", ((-60417027826940120), (-60672664008451070)));
   ("91", (19329553660136507, (-60754104731981050))); ("91", (19341898460657231, (-21272286433983807)));
   ("91", ((-19442945752781871), (-21260727934373134))); ("91", ((-19454128935696656), (-60742544952807050)));
   ("92", (60344168499814384, (-60730924978301020))); ("92", (60339026429481030, (-21250297737536670)));
   ("92", (21555334948604086, (-21257748089436840))); ("92", (21561638213854530, (-60739534886773160)));
   ("93", ((-21607143181766354), (-19734299477379610))); ("93", ((-21609590766163964), 19748665066616268));
   ("93", ((-60393301800054530), 19745679782093970)); ("93", ((-60390854451194790), (-19736123348256960)));
   ("94", (19348700233431325, (-19711469191125790))); ("94", (19344791204188570, 19771529062389600));
   ("94", ((-19440076578457468), 19767688893238680)); ("94", ((-19436168345675954), (-19715308066026400)));
   ("95", (60296262443363970, (-19703060839717772))); ("95", (60294997720092570, 19778746596032960));
   ("95", (21511281586897490, 19778086244235260)); ("95", (21512545289944706, (-19704879873498880)));
   ("96", ((-21568218914641214), 21180040277317520)); ("96", ((-21559283255621360), 60661831442065430));
   ("96", ((-60341815788930090), 60668193366114880)); ("96", ((-60351910242989690), 21187562319306356));
   ("97", (19400039784472910, 21204085266148330)); ("97", (19399459631955056, 60685908155576900));
   ("97", ((-19384227406640134), 60685908487169340)); ("97", ((-19384807103642679), 21204085382023905));
   ("98", (60345833945761350, 21204941413130573)); ("98", (60353978598936680, 60685570112334700));
   ("98", (21571447450339748, 60697126930429540)); ("98", (21562142763936506, 21215338519739600));
   ("99", (101543799508931500, (-60695916890658045))); ("99", (101545375554375400, (-21217722103868764)));
   ("99", (62765174062482370, (-21220407543399936))); ("99", (62764757339068180, (-60700928408680560)));
   ("100", (142478852321176720, (-60715525751839810))); ("100", (142488442464026990, (-21240978170642670)));
   ("100", (103714022722862770, (-21237617765062290))); ("100", (103705590681302360, (-60715649380560880)));
   ("101", (183458609594998880, (-60692655546756070))); ("101", (183464526099273370, (-21222980118965670)));
   ("101", (144698194242469940, (-21225049747476857))); ("101", (144693433999462750, (-60699366245346660)));
   ("102", (101599050434287000, (-19744829265788354))); ("102", (101595656193848770, 19734536585626310));
   ("102", (62815438836123290, 19732365230278456)); ("102", (62818833453267160, (-19749328720393413)));
   ("103", (142507918751873780, (-19751763857210817))); ("103", (142505275658527140, 19723956742306596));
   ("103", (103730836115577770, 19723099684911135)); ("103", (103733479853046090, (-19756106189138156)));
   ("104", (183427116633295900, (-19704025758545715))); ("104", (183422416881984070, 19766828121434940));
   ("104", (144656054653392930, 19764537913499350)); ("104", (144660754089314550, (-19710956967617970)));
   ("105", (101590703339769360, 21196639043272853)); ("105", (101585574522687070, 60674832054792440));
   ("105", (62806536432824350, 60676353587631450)); ("105", (62810506767324685, 21195833168788816));
   ("106", (142480402177939530, 21218092915829072)); ("106", (142472511958127280, 60692642566637180));
   ("106", (103699247865875000, 60694431574895730)); ("106", (103705980469945960, 21216398138088712));
   ("107", (183421015839501300, 21237182061456072)); ("107", (183421767200170400, 60706860635109050));
   ("107", (144656583334827100, 60720124397039650)); ("107", (144654674498856560, 21245806068315573));
   ("108", (224553137267081630, (-60665164453962030))); ("108", (224562602134900370, (-21201602255104510)));
   ("108", (185806691394864130, (-21202004253012050))); ("108", (185798379530326340, (-60671365805782035)));
   ("109", (265546636571974350, (-60646859510438640))); ("109", (265551913781891600, (-21190619608016247)));
   ("109", (226808690895115300, (-21196951304374803))); ("109", (226804564455131560, (-60660142819402430)));
   ("110", (306398692960464060, (-60647389488883170))); ("110", (306411373142581220, (-21199659352657556)));
   ("110", (267683070779999660, (-21200523003495034))); ("110", (267671537162551000, (-60656350103244280)));
   ("111", (224587750807755800, (-19687021478721617))); ("111", (224580090769497320, 19777706958718855));
   ("111", (185824165035948850, 19773092592972317)); ("111", (185831824932036600, (-19697437083144097)));
   ("112", (265523437629595660, (-19722893290306380))); ("112", (265531954283193540, 19734520259056523));
   ("112", (226788703737185840, 19746371232662622)); ("112", (226780185431134580, (-19717994863878794)));
   ("113", (306394515134974900, (-19686104537556610))); ("113", (306386977481374370, 19762796280335040));
   ("113", (267658645462813850, 19759449847861490)); ("113", (267666183554341600, (-19697549149016603)));
   ("114", (224578272682569820, 21247948244990564)); ("114", (224567104050617100, 60711505496805540));
   ("114", (185812352758582930, 60716047631745470)); ("114", (185822367334180470, 21246690565668563));
   ("115", (265545207875726820, 21241551631254360)); ("115", (265529944444824020, 60697792293774030));
   ("115", (226787871981029360, 60701276415627360)); ("115", (226801984953892800, 21238084202270494));
   ("116", (306411279141960150, 21180521709955693)); ("116", (306391232591895040, 60628254133030440));
   ("116", (267664076538167250, 60629963168751140)); ("116", (267682978541149770, 21174133687336910));
   ("117", ((-267678194661919860), 62391105640446460)); ("117", ((-267676176111032070), 101843384309444600));
   ("117", ((-306400953528750340), 101808733108916790)); ("117", ((-306405275591315060), 62364545316200455));
   ("118", ((-226772179013364980), 62433784870979720)); ("118", ((-226772004991667200), 101893427623789990));
   ("118", ((-265511700461948250), 101862307695215000)); ("118", ((-265514185262035300), 62409610427297940));
   ("119", ((-185823339890451330), 62422140180648130)); ("119", ((-185828420331897900), 101887941126175380));
   ("119", ((-224580779673166780), 101857040019894040)); ("119", ((-224578015215378020), 62397034368626710));
   ("120", ((-267665530704419630), 103312113010482730)); ("120", ((-267660704830727270), 142758526333517120));
   ("120", ((-306381930487967300), 142710418128516160)); ("120", ((-306390205955708700), 103272085842201400));
   ("121", ((-226775521256301970), 103346092908136700)); ("121", ((-226759439562801040), 142799874710580500));
   ("121", ((-265495567481518030), 142770550793506200)); ("121", ((-265515106736237440), 103323707291163080));
   ("122", ((-185834767517174680), 103367903240898520)); ("122", ((-185820532449080430), 142827835041188600));
   ("122", ((-224569312859762300), 142804454091943110)); ("122", ((-224587014032032670), 103350312093282630));
   ("123", ((-267660439134301700), 144223624172425960)); ("123", ((-267638742537505100), 183661858024719600));
   ("123", ((-306355223674434980), 183614135539939930)); ("123", ((-306381511513448240), 144183970721384560));
   ("124", ((-226786963106931800), 144301401319636510)); ("124", ((-226770197729046500), 183746967216371760));
   ("124", ((-265501559742393900), 183704481949134100)); ("124", ((-265522931165456350), 144265843491537260));
   ("125", ((-185827015305619730), 144326987852439760)); ("125", ((-185825111356827630), 183778688020219370));
   ("125", ((-224569122973711230), 183731752460331440)); ("125", ((-224575645590641550), 144285831355487340));
   ("126", ((-144791719501209240), 62383311835208250)); ("126", ((-144772426407765800), 101854074412226340));
   ("126", ((-183535185657288030), 101852523540769700)); ("126", ((-183556795251789700), 62386402015222860));
   ("127", ((-103843566544257440), 62463959657121850)); ("127", ((-103824546451507030), 101938425863185140));
   ("127", ((-142595382198137060), 101941984532345020)); ("127", ((-142616724764705140), 62471004142914390));
   ("128", ((-62823575757749795), 62438524528788820)); ("128", ((-62816134714225400), 101915488092961460));
   ("128", ((-101592767776914290), 101913086851765780)); ("128", ((-101602533847681450), 62438449629360680));
   ("129", ((-144728928818493930), 103331654997070470)); ("129", ((-144711555623420530), 142796546897293540));
   ("129", ((-183470748280896920), 142784066262862680)); ("129", ((-183491592665278630), 103323808460214250));
   ("130", ((-103785970616347720), 103384142834589400)); ("130", ((-103770804898970050), 142852734321383770));
   ("130", ((-142538066307988840), 142845864355136200)); ("130", ((-142556710011314300), 103380753133080190));
   ("131", ((-62781277196950640), 103427459823979640)); ("131", ((-62775435916325690), 142898533010590210));
   ("131", ((-101548479061539260), 142890310717237920)); ("131", ((-101557803747345300), 103421559986552390));
   ("132", ((-144690619614632700), 144298470281963160)); ("132", ((-144659387207390800), 183755148476986300));
   ("132", ((-183413800423016460), 183747245903241460)); ("132", ((-183449655987108600), 144295194701882250));
   ("133", ((-103806685093917940), 144320302084709630)); ("133", ((-103791265584609880), 183780671309635020));
   ("133", ((-142553739485621890), 183767401360082450)); ("133", ((-142573790899507440), 144310507575138910));
   ("134", ((-62831359639350940), 144326444049562750)); ("134", ((-62825576468962580), 183789297532834900));
   ("134", ((-101593829421082330), 183776765397607300)); ("134", ((-101604250000207170), 144316232054860400));
   ("135", ((-21589291821331935), 62431162197929550)); ("135", ((-21600748517687273), 101909394029575100));
   ("135", ((-60380874816929030), 101893872735093950)); ("135", ((-60371744809202950), 62416800217629460));
   ("136", (19440732900076700, 62452591921990430)); ("136", (19425708821152595, 101930854114599350));
   ("136", ((-19355570627049578), 101917245544438460)); ("136", ((-19342874014567442), 62438981412869790));
   ("137", (60321516557044750, 62446610386694650)); ("137", (60311540873013640, 101923685406721810));
   ("137", (21531412087954314, 101920433493205900)); ("137", (21539061019794370, 62442199816706810));
   ("138", ((-21590518500450770), 103365977281725040)); ("138", ((-21595802350713863), 142838327310834890));
   ("138", ((-60372338694987095), 142827035064702050)); ("138", ((-60370538931853650), 103355843120705500));
   ("139", (19340883330519409, 103429045630398790)); ("139", (19327143901904536, 142901418231613730));
   ("139", ((-19450539338987075), 142889625495980030)); ("139", ((-19440286314125214), 103417253497271770));
   ("140", (60367273943965185, 103374970634628750)); ("140", (60349888998163690, 142846161334153780));
   ("140", (21573355552297704, 142838609019181470)); ("140", (21587256655255893, 103366259044491790));
   ("141", ((-21581419424316630), 144305664862345100)); ("141", ((-21583612653606410), 183769791367063900));
   ("141", ((-60355358871403710), 183759705017416100)); ("141", ((-60357805539250490), 144296734577498200));
   ("142", (19352691825036028, 144302083112316050)); ("142", (19336521428581696, 183766242794370960));
   ("142", ((-19436376492526470), 183752630723901520)); ("142", ((-19424846694927648), 144288470763326640));
   ("143", (60324797914036750, 144303369446825550)); ("143", (60318131547889490, 183766340966856140));
   ("143", (21546384132135983, 183772274867441760)); ("143", (21548410584932317, 144308147818949140));
   ("144", (101580002063172730, 62379267263014590)); ("144", (101560334368699740, 101853912692585320));
   ("144", (62783696593946070, 101846575329330720)); ("144", (62801041607892655, 62369603796599150));
   ("145", (142493050970315620, 62388057358501920)); ("145", (142481196086120150, 101859059532308630));
   ("145", (103710331231530950, 101864791000420980)); ("145", (103719865075684560, 62390306876284170));
   ("146", (183517346686686880, 62441474011967600)); ("146", (183503781534039080, 101907593052931370));
   ("146", (144741015743682200, 101917057727845540)); ("146", (144752261858137450, 62446299075402140));
   ("147", (101548398269792460, 103377586011232470)); ("147", (101526842906211060, 142846346337961680));
   ("147", (62753796730194840, 142842545707299060)); ("147", (62771870762329840, 103371462368497190));
   ("148", (142474897135492550, 103412598812913390)); ("148", (142462334855095910, 142877711194050000));
   ("148", (103695061832013770, 142890546675033700)); ("148", (103704144642215300, 103421956747988890));
   ("149", (183450037243905400, 103368789867420780)); ("149", (183421931649053460, 142829047527296800));
   ("149", (144662736763692180, 142834396248323340)); ("149", (144687370779475220, 103369505181104980));
   ("150", (101548403615987670, 144308241959995270)); ("150", (101517982190138730, 183768783976146660));
   ("150", (62749727929096440, 183761654075127040)); ("150", (62775513528469090, 144298791618208320));
   ("151", (142522660055618110, 144287053831272280)); ("151", (142488846260524370, 183743961511856140));
   ("151", (103726366453978890, 183743693787290900)); ("151", (103755550305815500, 144283310812877620));
   ("152", (183428081341170040, 144349051782680480)); ("152", (183406066635256900, 183801087363797030));
   ("152", (144651649660760500, 183822597472474700)); ("152", (144669038005826810, 144365936814559300));
   ("153", (224599080202743070, 62386387648818200)); ("153", (224587132002552600, 101846400596344920));
   ("153", (185834775489093900, 101862840585961140)); ("153", (185844410189935300, 62397031156214275));
   ("154", (265563761786608840, 62343791594365670)); ("154", (265555411709130430, 101796491316795460));
   ("154", (226815727130669740, 101821827708226450)); ("154", (226821769311695100, 62362180861817760));
   ("155", (306429650165294660, 62348986686917160)); ("155", (306409919041944400, 101793182157775340));
   ("155", (267685149228497380, 101812678431064100)); ("155", (267702580376061630, 62360390774130490));
   ("156", (224607443100760100, 103357623286764540)); ("156", (224595142587959460, 142811756780268660));
   ("156", (185846368279863900, 142840451697589710)); ("156", (185855201685040940, 103380528193500140));
   ("157", (265596217743325760, 103341974976128830)); ("157", (265579585359236600, 142788797198608800));
   ("157", (226843486323974200, 142821000637083990)); ("157", (226856660141934940, 103367238042307830));
   ("158", (306462112880531750, 103290327448004560)); ("158", (306449885616544700, 142728645477766100));
   ("158", (267728689525610040, 142772889471717400)); ("158", (267737467494182060, 103326488133861450));
   ("159", (224634489859596100, 144278192837453520)); ("159", (224618970440460200, 183724116529833360));
   ("159", (185874973871804700, 183762222909184540)); ("159", (185885876183461940, 144310517652542390));
   ("160", (265555344722816850, 144241335789879170)); ("160", (265523645336718100, 183679984244734360));
   ("160", (226792294034850100, 183712316958581260)); ("160", (226819389876435040, 144266739175679120));
   ("161", (306467843551850240, 144228534766800580)); ("161", (306433732978327460, 183658679544600300));
   ("161", (267717294185267700, 183698751298609460)); ("161", (267746813868666300, 144260534356166650));
   ("162", ((-144612137873547700), 185509400678384940)); ("162", ((-144597375414417860), 224955452642950950));
   ("162", ((-183345799749447850), 224922316649246380)); ("162", ((-183366344720139360), 185480878275374900));
   ("163", ((-103758465259484140), 185501999561322430)); ("163", ((-103758687460883920), 224951738450108770));
   ("163", ((-142515153968045560), 224916448302890270)); ("163", ((-142520723235839200), 185470174491150570));
   ("164", ((-62802047444843030), 185548211778434750)); ("164", ((-62809341127904550), 225000420919562900));
   ("164", ((-101571567086607090), 224970786554262720)); ("164", ((-101570072092658620), 185520890290746080));
   ("165", ((-144597170633342460), 226441944925745360)); ("165", ((-144586833941977210), 265875104935983380));
   ("165", ((-183328092734368450), 265828632953549120)); ("165", ((-183345359424171680), 226400073686112600));
   ("166", ((-103709346537902630), 226492429728028400)); ("166", ((-103690669471407840), 265929272900712260));
   ("166", ((-142439949007219550), 265905934261529700)); ("166", ((-142465566493128140), 226472548421122780));
   ("167", ((-62771900424994380), 226482473677003300)); ("167", ((-62775003537677680), 265921788398614140));
   ("167", ((-101530045925262000), 265892052679575250)); ("167", ((-101533891075783860), 226455044341154900));
   ("168", ((-144613165030960940), 267377062724928800)); ("168", ((-144587103449629050), 306795033888802500));
   ("168", ((-183319990868211460), 306755022033713270)); ("168", ((-183354124648052970), 267341640729092000));
   ("169", ((-103687931654585210), 267403865485811470)); ("169", ((-103670409162105500), 306825509671847450));
   ("169", ((-142411325719010770), 306794451792987940)); ("169", ((-142436933243476100), 267376253893403870));
   ("170", ((-62762016995642830), 267358158323914230)); ("170", ((-62749258521288440), 306782292767336860));
   ("170", ((-101495931830645580), 306763923997566720)); ("170", ((-101516782558316170), 267342091190065980));
   ("171", ((-21493193087617525), 185549439907310700)); ("171", ((-21474939989309040), 225002921926143980));
   ("171", ((-60240647553211630), 225011099939866270)); ("171", ((-60264702351704170), 185558771434592640));
   ("172", (19451930892361085, 185556206161450700)); ("172", (19448190761842989, 225009718227904450));
   ("172", ((-19318668388740492), 225008915056769680)); ("172", ((-19320731653504543), 185555401042188800));
   ("173", (60352428954975090, 185508607947294600)); ("173", (60356618324848840, 224960940550969660));
   ("173", (21590906075170850, 224980525014911730)); ("173", (21580915268249825, 185527039827819430));
   ("174", ((-21516477192720786), 226471071586247100)); ("174", ((-21512538613807815), 265911660395004230));
   ("174", ((-60271061012079150), 265903953477797300)); ("174", ((-60281951551397710), 226464514234840440));
   ("175", (19447915538957066, 226440389620288300)); ("175", (19446242915550152, 265881019523485920));
   ("175", ((-19313431951603595), 265882814306825100)); ("175", ((-19318712031287542), 226442182854283500));
   ("176", (60328976091213580, 226476296580914000)); ("176", (60313263167254580, 265915730841099900));
   ("176", (21554746179661710, 265918720355008100)); ("176", (21563507012537656, 226478134501104800));
   ("177", ((-21518025398005980), 267437614399228080)); ("177", ((-21515578688868875), 306862977211205360));
   ("177", ((-60265710251722170), 306851987160702400)); ("177", ((-60276256793798130), 267427770285777470));
   ("178", (19449814444036427, 267407885051473500)); ("178", (19442198745417646, 306833291007593750));
   ("178", ((-19309084282943417), 306829820528076170)); ("178", ((-19309569345423267), 267404411991844920));
   ("179", (60384225698531130, 267328883892208600)); ("179", (60381668496240720, 306753131604252760));
   ("179", (21631521995284750, 306772004431415080)); ("179", (21625981813494110, 267346609134519460));
   ("180", (101478559546102630, 185479302156735770)); ("180", (101465590747496000, 224929226677074780));
   ("180", (62703346446877220, 224944621065229430)); ("180", (62710518697952730, 185492384491535120));
   ("181", (142485059453115150, 185501269323206830)); ("181", (142468919724516060, 224947546986193400));
   ("181", (103712452136268640, 224972448554572100)); ("181", (103722800517512680, 185522705546287870));
   ("182", (183418708974865400, 185470882670470580)); ("182", (183377845490546900, 224912330698385000));
   ("182", (144629440411004180, 224925518319363420)); ("182", (144664524148650720, 185479452775526500));
   ("183", (101445209025208560, 226497258952523300)); ("183", (101423939473821640, 265934270521102560));
   ("183", (62668895992746210, 265946867414110500)); ("183", (62683217267707290, 226507549394492220));
   ("184", (142420459137409420, 226396847160924800)); ("184", (142399511913132890, 265830260118066870));
   ("184", (103650209100843090, 265858154965561980)); ("184", (103664217575635490, 226421286609940970));
   ("185", (183335713704183660, 226407622852373040)); ("185", (183290764819575330, 265836206933156330));
   ("185", (144549517177851340, 265855484636577170)); ("185", (144587539216706100, 226422296006707420));
   ("186", (101445650531273670, 267393022192481850)); ("186", (101420275131543300, 306814842267061660));
   ("186", (62673606275089290, 306828744727071430)); ("186", (62690888294135300, 267404624231293540));
   ("187", (142391595981205460, 267385718372352630)); ("187", (142348172216993450, 306803929383578000));
   ("187", (103607259483257540, 306817474096927920)); ("187", (103642599632613640, 267395814979568500));
   ("188", (183334514621121820, 267344556497843620)); ("188", (183285403128529670, 306757953511844830));
   ("188", (144552521880794950, 306783247431348280)); ("188", (144593562911179350, 267365258506644700))].
(** modules/data/DES_ccd_corners.csv, lines 2-245, in units of 10^-9. *)
Definition des_corners : list (string * (Z * Z)) :=
  [("N1", ((-1081100000), (-157306000))); ("N1", ((-1081100000), (-7505060))); ("N1", ((-782681000), (-7505060)));
   ("N1", ((-782681000), (-157306000))); ("N2", ((-771362000), (-157385000))); ("N2", ((-771362000), (-7498480)));
   ("N2", ((-472493000), (-7498480))); ("N2", ((-472493000), (-157385000))); ("N3", ((-461205000), (-157448000)));
   ("N3", ((-461205000), (-7492650))); ("N3", ((-161464000), (-7492650))); ("N3", ((-161464000), (-157448000)));
   ("N4", ((-150127000), (-157470000))); ("N4", ((-150127000), (-7490850))); ("N4", (149894000, (-7490850)));
   ("N4", (149894000, (-157470000))); ("N5", (161033000, (-157638000))); ("N5", (161033000, (-7429400)));
   ("N5", (460796000, (-7429400))); ("N5", (460796000, (-157638000))); ("N6", (472171000, (-157286000)));
   ("N6", (472171000, (-7405630))); ("N6", (771045000, (-7405630))); ("N6", (771045000, (-157286000)));
   ("N7", (782398000, (-157141000))); ("N7", (782398000, (-7479800))); ("N7", (1080830000, (-7479800)));
   ("N7", (1080830000, (-157141000))); ("N8", ((-926150000), (-321782000))); ("N8", ((-926150000), (-172004000)));
   ("N8", ((-627492000), (-172004000))); ("N8", ((-627492000), (-321782000))); ("N9", ((-616455000), (-322077000)));
   ("N9", ((-616455000), (-172189000))); ("N9", ((-317043000), (-172189000))); ("N9", ((-317043000), (-322077000)));
   ("N10", ((-305679000), (-322071000))); ("N10", ((-305679000), (-172170000))); ("N10", ((-5719990), (-172170000)));
   ("N10", ((-5719990), (-322071000))); ("N11", (5654270, (-322243000))); ("N11", (5654270, (-172254000)));
   ("N11", (305554000, (-172254000))); ("N11", (305554000, (-322243000))); ("N12", (316840000, (-322099000)));
   ("N12", (316840000, (-172063000))); ("N12", (616183000, (-172063000))); ("N12", (616183000, (-322099000)));
   ("N13", (627264000, (-321792000))); ("N13", (627264000, (-171887000))); ("N13", (925858000, (-171887000)));
   ("N13", (925858000, (-321792000))); ("N14", ((-926057000), (-485961000))); ("N14", ((-926057000), (-336213000)));
   ("N14", ((-627260000), (-336213000))); ("N14", ((-627260000), (-485961000))); ("N15", ((-616498000), (-486444000)));
   ("N15", ((-616498000), (-336606000))); ("N15", ((-317089000), (-336606000))); ("N15", ((-317089000), (-486444000)));
   ("N16", ((-305580000), (-486753000))); ("N16", ((-305580000), (-336864000))); ("N16", ((-5782570), (-336864000)));
   ("N16", ((-5782570), (-486753000))); ("N17", (5321790, (-486814000))); ("N17", (5321790, (-336870000)));
   ("N17", (305123000, (-336870000))); ("N17", (305123000, (-486814000))); ("N18", (316662000, (-486495000)));
   ("N18", (316662000, (-336537000))); ("N18", (616018000, (-336537000))); ("N18", (616018000, (-486495000)));
   ("N19", (627080000, (-485992000))); ("N19", (627080000, (-336061000))); ("N19", (925780000, (-336061000)));
   ("N19", (925780000, (-485992000))); ("N20", ((-770814000), (-650617000))); ("N20", ((-770814000), (-500679000)));
   ("N20", ((-471826000), (-500679000))); ("N20", ((-471826000), (-650617000))); ("N21", ((-460777000), (-650817000)));
   ("N21", ((-460777000), (-501097000))); ("N21", ((-161224000), (-501097000))); ("N21", ((-161224000), (-650817000)));
   ("N22", ((-149847000), (-650816000))); ("N22", ((-149847000), (-501308000))); ("N22", (149886000, (-501308000)));
   ("N22", (149886000, (-650816000))); ("N23", (161001000, (-650946000))); ("N23", (161001000, (-501263000)));
   ("N23", (460566000, (-501263000))); ("N23", (460566000, (-650946000))); ("N24", (471630000, (-650495000)));
   ("N24", (471630000, (-500592000))); ("N24", (770632000, (-500592000))); ("N24", (770632000, (-650495000)));
   ("N25", ((-615548000), (-814774000))); ("N25", ((-615548000), (-665052000))); ("N25", ((-316352000), (-665052000)));
   ("N25", ((-316352000), (-814774000))); ("N26", ((-305399000), (-814862000))); ("N26", ((-305399000), (-665489000)));
   ("N26", ((-5912170), (-665489000))); ("N26", ((-5912170), (-814862000))); ("N27", (5507140, (-815022000)));
   ("N27", (5507140, (-665418000))); ("N27", (304979000, (-665418000))); ("N27", (304979000, (-815022000)));
   ("N28", (316126000, (-814707000))); ("N28", (316126000, (-664908000))); ("N28", (615276000, (-664908000)));
   ("N28", (615276000, (-814707000))); ("N29", ((-460180000), (-978870000))); ("N29", ((-460180000), (-829315000)));
   ("N29", ((-161010000), (-829315000))); ("N29", ((-161010000), (-978870000))); ("N31", (160884000, (-978775000)));
   ("N31", (160884000, (-829426000))); ("N31", (460147000, (-829426000))); ("N31", (460147000, (-978775000)));
   ("S1", ((-1080960000), 7159560)); ("S1", ((-1080960000), 156890000)); ("S1", ((-782554000), 156890000));
   ("S1", ((-782554000), 7159560)); ("S2", ((-771300000), 7419400)); ("S2", ((-771300000), 157269000));
   ("S2", ((-472420000), 157269000)); ("S2", ((-472420000), 7419400)); ("S3", ((-461100000), 7230090));
   ("S3", ((-461100000), 157192000)); ("S3", ((-161377000), 157192000)); ("S3", ((-161377000), 7230090));
   ("S4", ((-149836000), 7370690)); ("S4", ((-149836000), 157441000)); ("S4", (150222000, 157441000));
   ("S4", (150222000, 7370690)); ("S5", (161297000, 7239900)); ("S5", (161297000, 157200000));
   ("S5", (461031000, 157200000)); ("S5", (461031000, 7239900)); ("S6", (472537000, 7289340));
   ("S6", (472537000, 157137000)); ("S6", (771441000, 157137000)); ("S6", (771441000, 7289340));
   ("S7", (782516000, 74830955)); ("S7", (782516000, 157090000)); ("S7", (1080970000, 157090000));
   ("S7", (1080970000, 74830955)); ("S8", ((-925830000), 171786000)); ("S8", ((-925830000), 321730000));
   ("S8", ((-627259000), 321730000)); ("S8", ((-627259000), 171786000)); ("S9", ((-616329000), 171889000));
   ("S9", ((-616329000), 321823000)); ("S9", ((-316940000), 321823000)); ("S9", ((-316940000), 171889000));
   ("S10", ((-305695000), 172216000)); ("S10", ((-305695000), 322179000)); ("S10", ((-5791870), 322179000));
   ("S10", ((-5791870), 172216000)); ("S11", (5567390, 172237000)); ("S11", (5567390, 322278000));
   ("S11", (305472000, 322278000)); ("S11", (305472000, 172237000)); ("S12", (316973000, 172015000));
   ("S12", (316973000, 322057000)); ("S12", (616310000, 322057000)); ("S12", (616310000, 172015000));
   ("S13", (627389000, 171749000)); ("S13", (627389000, 321672000)); ("S13", (925972000, 321672000));
   ("S13", (925972000, 171749000)); ("S14", ((-925847000), 335898000)); ("S14", ((-925847000), 485780000));
   ("S14", ((-627123000), 485780000)); ("S14", ((-627123000), 335898000)); ("S15", ((-616201000), 336498000));
   ("S15", ((-616201000), 486438000)); ("S15", ((-316839000), 486438000)); ("S15", ((-316839000), 336498000));
   ("S16", ((-305558000), 336904000)); ("S16", ((-305558000), 486749000)); ("S16", ((-5748580), 486749000));
   ("S16", ((-5748580), 336904000)); ("S17", (5571150, 336750000)); ("S17", (5571150, 486491000));
   ("S17", (305423000, 486491000)); ("S17", (305423000, 336750000)); ("S18", (316635000, 336490000));
   ("S18", (316635000, 486573000)); ("S18", (615931000, 486573000)); ("S18", (615931000, 336490000));
   ("S19", (627207000, 336118000)); ("S19", (627207000, 485923000)); ("S19", (925969000, 485923000));
   ("S19", (925969000, 336118000)); ("S20", ((-770675000), 500411000)); ("S20", ((-770675000), 650420000));
   ("S20", ((-471718000), 650420000)); ("S20", ((-471718000), 500411000)); ("S21", ((-460720000), 501198000));
   ("S21", ((-460720000), 650786000)); ("S21", ((-161101000), 650786000)); ("S21", ((-161101000), 501198000));
   ("S22", ((-149915000), 501334000)); ("S22", ((-149915000), 650856000)); ("S22", (149820000, 650856000));
   ("S22", (149820000, 501334000)); ("S23", (160973000, 501075000)); ("S23", (160973000, 650896000));
   ("S23", (460482000, 650896000)); ("S23", (460482000, 501075000)); ("S24", (471670000, 500450000));
   ("S24", (471670000, 650441000)); ("S24", (770647000, 650441000)); ("S24", (770647000, 500450000));
   ("S25", ((-615564000), 665010000)); ("S25", ((-615564000), 814674000)); ("S25", ((-316325000), 814674000));
   ("S25", ((-316325000), 665010000)); ("S26", ((-305120000), 665531000)); ("S26", ((-305120000), 815050000));
   ("S26", ((-5651700), 815050000)); ("S26", ((-5651700), 665531000)); ("S27", (5608860, 665509000));
   ("S27", (5608860, 815022000)); ("S27", (305082000, 815022000)); ("S27", (305082000, 665509000));
   ("S28", (316158000, 665058000)); ("S28", (316158000, 814732000)); ("S28", (615391000, 814732000));
   ("S28", (615391000, 665058000)); ("S29", ((-460210000), 829248000)); ("S29", ((-460210000), 978699000));
   ("S29", ((-160988000), 978699000)); ("S29", ((-160988000), 829248000)); ("S30", ((-150043000), 829007000));
   ("S30", ((-150043000), 978648000)); ("S30", (149464000, 978648000)); ("S30", (149464000, 829007000));
   ("S31", (160898000, 829320000)); ("S31", (160898000, 978804000)); ("S31", (460111000, 978804000));
   ("S31", (460111000, 829320000))].
(** The numbers of a file, from units of a power of ten (the CSV files hold decimals). *)
Definition in_units (digits : nat) (file : list (string * (Z * Z))) : list (string * (R * R)) :=
  map (fun r => (fst r, (IZR (fst (snd r)) / 10 ^ digits, IZR (snd (snd r)) / 10 ^ digits)%R)) file.
(** modules/PPFootprintFilter.py:556-563: the file for a survey name in lower case.  For any
    other name the variable is not set and the program stops. *)
Definition builtin_camera (survey : string) : option (list (string * (R * R))) :=
  if orb (String.eqb survey "rubin_sim") (String.eqb survey "lsst") then Some (in_units 19 lsst_corners)
  else if String.eqb survey "des" then Some (in_units 9 des_corners) else None.
