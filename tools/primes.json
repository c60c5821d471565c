{
"p25519": {
"57896044618658097711785492504343953926634992332820282019728792003956564819949": {
"f": {
"2": 2,
"3": 1,
"65147": 1,
"74058212732561358302231226437062788676166966415465897661863160754340907": 1
}
},
"74058212732561358302231226437062788676166966415465897661863160754340907": {
"f": {
"2": 1,
"3": 1,
"353": 1,
"57467": 1,
"132049": 1,
"1923133": 1,
"31757755568855353": 1,
"75445702479781427272750846543864801": 1
}
},
"75445702479781427272750846543864801": {
"f": {
"2": 5,
"3": 2,
"5": 2,
"75707": 1,
"72106336199": 1,
"1919519569386763": 1
}
},
"1919519569386763": {
"f": {
"2": 1,
"3": 1,
"7": 1,
"19": 1,
"47": 2,
"127": 1,
"8574133": 1
}
},
"8574133": {
"f": {
"2": 2,
"3": 1,
"7": 1,
"103": 1,
"991": 1
}
},
"72106336199": {
"f": {
"2": 1,
"13": 1,
"2773320623": 1
}
},
"2773320623": {
"f": {
"2": 1,
"2437": 1,
"569003": 1
}
},
"31757755568855353": {
"f": {
"2": 3,
"3": 1,
"31": 1,
"107": 1,
"223": 1,
"4153": 1,
"430751": 1
}
},
"1923133": {
"f": {
"2": 2,
"3": 1,
"43": 1,
"3727": 1
}
}
},
"psecp": {
"115792089237316195423570985008687907853269984665640564039457584007908834671663": {
"f": {
"2": 1,
"3": 1,
"7": 1,
"13441": 1,
"205115282021455665897114700593932402728804164701536103180137503955397371": 1
}
},
"205115282021455665897114700593932402728804164701536103180137503955397371": {
"f": {
"2": 1,
"3": 1,
"5": 1,
"29": 2,
"31": 1,
"7723": 1,
"132896956044521568488119": 1,
"255515944373312847190720520512484175977": 1
}
},
"255515944373312847190720520512484175977": {
"f": {
"2": 3,
"7": 2,
"11": 1,
"1627": 1,
"2657": 1,
"4423": 1,
"41201": 1,
"96557": 1
}
},
"132896956044521568488119": {
"f": {
"2": 1,
"3": 1,
"22149492674086928081353": 1
}
},
"22149492674086928081353": {
"f": {
"2": 3,
"3": 1,
"5323": 1,
"173378833005251801": 1
}
},
"173378833005251801": {
"f": {
"2": 3,
"5": 2,
"2621": 1,
"24809": 1,
"13331831": 1
}
},
"13331831": {
"f": {
"2": 1,
"5": 1,
"971": 1,
"1373": 1
}
}
},
"p256": {
"115792089210356248762697446949407573530086143415290314195533631308867097853951": {
"f": {
"2": 1,
"3": 1,
"5": 2,
"17": 1,
"257": 1,
"641": 1,
"1531": 1,
"65537": 1,
"835945042244614951780389953367877943453916927241": 1
}
},
"835945042244614951780389953367877943453916927241": {
"f": {
"2": 3,
"3": 3,
"5": 1,
"774023187263532362759620327192479577272145303": 1
}
},
"774023187263532362759620327192479577272145303": {
"f": {
"2": 1,
"3": 2,
"2411": 1,
"34282281433": 1,
"11290956913871": 1,
"46076956964474543": 1
}
},
"46076956964474543": {
"f": {
"2": 1,
"23": 1,
"18169": 1,
"78283": 1,
"704251": 1
}
},
"11290956913871": {
"f": {
"2": 1,
"5": 1,
"17": 1,
"66417393611": 1
}
},
"66417393611": {
"f": {
"2": 1,
"5": 1,
"53": 1,
"173": 1,
"197": 1,
"3677": 1
}
},
"34282281433": {
"f": {
"2": 3,
"3": 1,
"7": 1,
"204061199": 1
}
},
"204061199": {
"f": {
"2": 1,
"11": 1,
"23": 1,
"107": 1,
"3769": 1
}
}
},
"p448": {
"726838724295606890549323807888004534353641360687318060281490199180612328166730772686396383698676545930088884461843637361053498018365439": {
"f": {
"2": 1,
"641": 1,
"18287": 1,
"196687": 1,
"1469495262398780123809": 1,
"596242599987116128415063": 1,
"37414057161322375957408148834323969": 1
}
},
"37414057161322375957408148834323969": {
"f": {
"2": 9,
"3": 2,
"7": 1,
"36753053": 1,
"1255525949": 1,
"25136521679249": 1
}
},
"25136521679249": {
"f": {
"2": 4,
"7": 2,
"32061889897": 1
}
},
"32061889897": {
"f": {
"2": 3,
"3": 1,
"1335912079": 1
}
},
"1335912079": {
"f": {
"2": 1,
"3": 1,
"19": 1,
"31": 1,
"61": 1,
"6197": 1
}
},
"1255525949": {
"f": {
"2": 2,
"2683": 1,
"116989": 1
}
},
"36753053": {
"f": {
"2": 2,
"7": 1,
"443": 1,
"2963": 1
}
},
"596242599987116128415063": {
"f": {
"2": 1,
"37": 1,
"223": 1,
"36131535570665139281": 1
}
},
"36131535570665139281": {
"f": {
"2": 4,
"5": 1,
"13": 1,
"34741861125639557": 1
}
},
"34741861125639557": {
"f": {
"2": 2,
"7": 3,
"31": 1,
"463": 1,
"1764234391": 1
}
},
"1764234391": {
"f": {
"2": 1,
"3": 1,
"5": 1,
"271": 1,
"217003": 1
}
},
"1469495262398780123809": {
"f": {
"2": 5,
"3": 1,
"7": 2,
"223": 1,
"411743": 1,
"3402277943": 1
}
},
"3402277943": {
"f": {
"2": 1,
"7": 1,
"151": 1,
"1609403": 1
}
},
"1609403": {
"f": {
"2": 1,
"23": 1,
"59": 1,
"593": 1
}
}
},
"rsecp": {
"115792089237316195423570985008687907852837564279074904382605163141518161494337": {
"f": {
"2": 6,
"3": 1,
"149": 1,
"631": 1,
"107361793816595537": 1,
"174723607534414371449": 1,
"341948486974166000522343609283189": 1
}
},
"341948486974166000522343609283189": {
"f": {
"2": 2,
"3": 3,
"109": 1,
"29047611873442575647497758179": 1
}
},
"29047611873442575647497758179": {
"f": {
"2": 1,
"293": 1,
"305873": 1,
"297159362677": 1,
"545358713": 1
}
},
"545358713": {
"f": {
"2": 3,
"41": 1,
"59": 1,
"28181": 1
}
},
"297159362677": {
"f": {
"2": 2,
"3": 2,
"11": 1,
"461": 1,
"1627771": 1
}
},
"1627771": {
"f": {
"2": 1,
"3": 1,
"5": 1,
"29": 1,
"1871": 1
}
},
"174723607534414371449": {
"f": {
"2": 3,
"17": 1,
"59": 1,
"4051": 1,
"120233": 1,
"44706919": 1
}
},
"44706919": {
"f": {
"2": 1,
"3": 1,
"797": 1,
"9349": 1
}
},
"107361793816595537": {
"f": {
"2": 4,
"16699": 1,
"85831": 1,
"4681609": 1
}
},
"4681609": {
"f": {
"2": 3,
"3": 1,
"97": 1,
"2011": 1
}
}
},
"r25519": {
"7237005577332262213973186563042994240857116359379907606001950938285454250989": {
"f": {
"2": 2,
"3": 1,
"11": 1,
"198211423230930754013084525763697": 1,
"276602624281642239937218680557139826668747": 1
}
},
"276602624281642239937218680557139826668747": {
"f": {
"2": 1,
"7": 1,
"19757330305831588566944191468367130476339": 1
}
},
"19757330305831588566944191468367130476339": {
"f": {
"2": 1,
"269": 1,
"213441916511": 1,
"172054593956031949258510691": 1
}
},
"172054593956031949258510691": {
"f": {
"2": 1,
"5": 1,
"1361": 1,
"2851": 1,
"4434155615661930479": 1
}
},
"4434155615661930479": {
"f": {
"2": 1,
"41": 1,
"43": 1,
"1257559732178653": 1
}
},
"1257559732178653": {
"f": {
"2": 2,
"3": 1,
"7": 1,
"23": 1,
"531581": 1,
"1224481": 1
}
},
"1224481": {
"f": {
"2": 5,
"3": 1,
"5": 1,
"2551": 1
}
},
"213441916511": {
"f": {
"2": 1,
"5": 1,
"73": 1,
"292386187": 1
}
},
"292386187": {
"f": {
"2": 1,
"3": 4,
"307": 1,
"5879": 1
}
},
"198211423230930754013084525763697": {
"f": {
"2": 4,
"3": 1,
"23": 1,
"58964693": 1,
"3044861653679985063343": 1
}
},
"3044861653679985063343": {
"f": {
"2": 1,
"3": 1,
"11": 1,
"30703": 1,
"82163": 1,
"132667": 1,
"137849": 1
}
},
"58964693": {
"f": {
"2": 2,
"14741173": 1
}
},
"14741173": {
"f": {
"2": 2,
"3": 2,
"409477": 1
}
}
},
"r256": {
"115792089210356248762697446949407573529996955224135760342422259061068512044369": {
"f": {
"2": 4,
"3": 1,
"71": 1,
"131": 1,
"373": 1,
"3407": 1,
"17449": 1,
"38189": 1,
"2624747550333869278416773953": 1,
"1002328039319": 1
}
},
"1002328039319": {
"f": {
"2": 1,
"126241": 1,
"3969899": 1
}
},
"3969899": {
"f": {
"2": 1,
"19": 1,
"104471": 1
}
},
"2624747550333869278416773953": {
"f": {
"2": 6,
"3": 2,
"1297": 1,
"16879": 1,
"208150935158385979": 1
}
},
"208150935158385979": {
"f": {
"2": 1,
"3": 1,
"11": 1,
"43": 1,
"127": 1,
"3023": 1,
"191039911": 1
}
},
"191039911": {
"f": {
"2": 1,
"3": 1,
"5": 1,
"41": 1,
"155317": 1
}
}
},
"rbls": {
"52435875175126190479447740508185965837690552500527637822603658699938581184513": {
"f": {
"2": 32,
"3": 1,
"11": 1,
"19": 1,
"10177": 1,
"125527": 1,
"906349": 2,
"859267": 1
}
}
},
"p521": {
"6864797660130609714981900799081393217269435300143305409394463459185543183397656052122559640661454554977296311391480858037121987999716643812574028291115057151": {
"f": {
"2": 1,
"3": 1,
"5": 2,
"11": 1,
"17": 1,
"31": 1,
"41": 1,
"53": 1,
"131": 1,
"157": 1,
"521": 1,
"1613": 1,
"2731": 1,
"8191": 1,
"42641": 1,
"51481": 1,
"61681": 1,
"145295143558111": 1,
"409891": 1,
"7623851": 1,
"858001": 1,
"308761441": 1
}
},
"308761441": {
"f": {
"2": 5,
"3": 1,
"5": 1,
"13": 1,
"49481": 1
}
},
"7623851": {
"f": {
"2": 1,
"5": 2,
"13": 1,
"37": 1,
"317": 1
}
},
"145295143558111": {
"f": {
"2": 1,
"3": 2,
"5": 1,
"7": 2,
"13": 1,
"2534364967": 1
}
},
"2534364967": {
"f": {
"2": 1,
"3": 1,
"7": 2,
"8620289": 1
}
},
"8620289": {
"f": {
"2": 8,
"151": 1,
"223": 1
}
}
},
"pbls": {
"4002409555221667393417789825735904156556882819939007885332058136124031650490837864442687629129015664037894272559787": {
"f": {
"2": 1,
"3": 2,
"11": 1,
"23": 1,
"47": 1,
"10177": 1,
"859267": 1,
"52437899": 1,
"2584487767265781317813": 1,
"15778400344354997994418419698270088123916926905054652752758194827714659": 1
}
},
"15778400344354997994418419698270088123916926905054652752758194827714659": {
"f": {
"2": 1,
"3": 1,
"53": 1,
"475709467": 1,
"92691255082156974996979": 1,
"1125266252156850182658904441386709967": 1
}
},
"1125266252156850182658904441386709967": {
"f": {
"2": 1,
"3373": 1,
"43670061551": 1,
"3819663927398918131021": 1
}
},
"3819663927398918131021": {
"f": {
"2": 2,
"3": 2,
"5": 1,
"19": 1,
"113": 1,
"755057": 1,
"13090036741": 1
}
},
"13090036741": {
"f": {
"2": 2,
"3": 1,
"5": 1,
"11": 1,
"47": 1,
"421987": 1
}
},
"43670061551": {
"f": {
"2": 1,
"5": 2,
"17": 1,
"51376543": 1
}
},
"51376543": {
"f": {
"2": 1,
"3": 1,
"7": 1,
"151": 1,
"8101": 1
}
},
"92691255082156974996979": {
"f": {
"2": 1,
"3": 1,
"31": 1,
"467": 1,
"16447": 1,
"64881703735777": 1
}
},
"64881703735777": {
"f": {
"2": 5,
"3": 7,
"927093389": 1
}
},
"927093389": {
"f": {
"2": 2,
"13": 1,
"409": 1,
"43591": 1
}
},
"475709467": {
"f": {
"2": 1,
"3": 1,
"47": 1,
"1686913": 1
}
},
"1686913": {
"f": {
"2": 7,
"3": 1,
"23": 1,
"191": 1
}
},
"2584487767265781317813": {
"f": {
"2": 2,
"89": 1,
"7259797099061183477": 1
}
},
"7259797099061183477": {
"f": {
"2": 2,
"941": 1,
"1928745244171409": 1
}
},
"1928745244171409": {
"f": {
"2": 4,
"13": 1,
"9272813673901": 1
}
},
"9272813673901": {
"f": {
"2": 2,
"3": 1,
"5": 2,
"7": 1,
"7577": 1,
"582767": 1
}
},
"52437899": {
"f": {
"2": 1,
"43": 1,
"609743": 1
}
}
},
"p384": {
"39402006196394479212279040100143613805079739270465446667948293404245721771496870329047266088258938001861606973112319": {
"f": {
"2": 1,
"19": 1,
"67": 1,
"807145746439": 1,
"19173790298027098165721053155794528970226934547887232785722672956982046098136719667167519737147526097": 1
}
},
"19173790298027098165721053155794528970226934547887232785722672956982046098136719667167519737147526097": {
"f": {
"2": 4,
"11": 3,
"8389": 1,
"38557": 1,
"312289": 1,
"1357291859799823621": 1,
"529709925838459440593": 1,
"12397338596863679689524759770405177749801411": 1
}
},
"12397338596863679689524759770405177749801411": {
"f": {
"2": 1,
"3": 1,
"5": 1,
"413244619895455989650825325680172591660047": 1
}
},
"413244619895455989650825325680172591660047": {
"f": {
"2": 1,
"17": 1,
"97": 1,
"6051631": 1,
"20705423504133292078628634597817": 1
}
},
"20705423504133292078628634597817": {
"f": {
"2": 3,
"3": 1,
"862725979338887169942859774909": 1
}
},
"862725979338887169942859774909": {
"f": {
"2": 2,
"3": 2,
"23964610537191310276190549303": 1
}
},
"23964610537191310276190549303": {
"f": {
"2": 1,
"336757": 1,
"35581458644053887931343": 1
}
},
"35581458644053887931343": {
"f": {
"2": 1,
"17": 1,
"41": 1,
"568151": 1,
"44925942675193": 1
}
},
"44925942675193": {
"f": {
"2": 3,
"3": 1,
"3517": 1,
"532247449": 1
}
},
"532247449": {
"f": {
"2": 3,
"3": 1,
"61": 1,
"363557": 1
}
},
"6051631": {
"f": {
"2": 1,
"3": 1,
"5": 1,
"13": 1,
"59": 1,
"263": 1
}
},
"529709925838459440593": {
"f": {
"2": 4,
"7": 1,
"181": 1,
"105957871": 1,
"246608641": 1
}
},
"246608641": {
"f": {
"2": 8,
"3": 2,
"5": 1,
"21407": 1
}
},
"105957871": {
"f": {
"2": 1,
"3": 1,
"5": 1,
"19": 1,
"211": 1,
"881": 1
}
},
"1357291859799823621": {
"f": {
"2": 2,
"3": 1,
"5": 1,
"67": 1,
"6317": 1,
"53448597593": 1
}
},
"53448597593": {
"f": {
"2": 3,
"13": 1,
"513928823": 1
}
},
"513928823": {
"f": {
"2": 1,
"11": 1,
"59": 1,
"599": 1,
"661": 1
}
},
"807145746439": {
"f": {
"2": 1,
"3": 1,
"47": 1,
"2862218959": 1
}
},
"2862218959": {
"f": {
"2": 1,
"3": 1,
"157": 1,
"1373": 1,
"2213": 1
}
}
},
"r384": {
"39402006196394479212279040100143613805079739270465446667946905279627659399113263569398956308152294913554433653942643": {
"f": {
"2": 1,
"3": 2,
"7": 2,
"13": 1,
"1124679999981664229965379347": 1,
"3055465788140352002733946906144561090641249606160407884365391979704929268480326390471": 1
}
},
"3055465788140352002733946906144561090641249606160407884365391979704929268480326390471": {
"f": {
"2": 1,
"3": 1,
"5": 1,
"151": 1,
"347": 1,
"1276987": 1,
"1436833069313": 1,
"1059392654943455286185473617842338478315215895509773412096307": 1
}
},
"1059392654943455286185473617842338478315215895509773412096307": {
"f": {
"2": 1,
"251": 1,
"8463023": 1,
"248431": 1,
"55942463741690639": 1,
"17942392077136950785977011829": 1
}
},
"17942392077136950785977011829": {
"f": {
"2": 2,
"3": 1,
"1495199339761412565498084319": 1
}
},
"1495199339761412565498084319": {
"f": {
"2": 1,
"3": 3,
"64901": 1,
"426632512014427833817": 1
}
},
"426632512014427833817": {
"f": {
"2": 3,
"3": 1,
"13": 1,
"89": 1,
"659": 1,
"23314383343543": 1
}
},
"23314383343543": {
"f": {
"2": 1,
"3": 1,
"17": 1,
"228572385721": 1
}
},
"228572385721": {
"f": {
"2": 3,
"3": 1,
"5": 1,
"7": 1,
"272109983": 1
}
},
"272109983": {
"f": {
"2": 1,
"19": 1,
"73": 1,
"233": 1,
"421": 1
}
},
"55942463741690639": {
"f": {
"2": 1,
"7": 1,
"107": 1,
"37344768852931": 1
}
},
"37344768852931": {
"f": {
"2": 1,
"3": 1,
"5": 1,
"7": 1,
"11": 2,
"149": 1,
"9863677": 1
}
},
"9863677": {
"f": {
"2": 2,
"3": 2,
"311": 1,
"881": 1
}
},
"8463023": {
"f": {
"2": 1,
"113": 1,
"37447": 1
}
},
"1436833069313": {
"f": {
"2": 8,
"16979": 1,
"330563": 1
}
},
"1276987": {
"f": {
"2": 1,
"3": 1,
"29": 1,
"41": 1,
"179": 1
}
},
"1124679999981664229965379347": {
"f": {
"2": 1,
"3": 1,
"1553": 1,
"120699720968197491947347": 1
}
},
"120699720968197491947347": {
"f": {
"2": 1,
"3": 1,
"13": 1,
"34429": 1,
"290064143": 1,
"154950581": 1
}
},
"154950581": {
"f": {
"2": 2,
"5": 1,
"17": 1,
"455737": 1
}
},
"290064143": {
"f": {
"2": 1,
"79": 1,
"491": 1,
"3739": 1
}
}
},
"r448": {
"181709681073901722637330951972001133588410340171829515070372549795146003961539585716195755291692375963310293709091662304773755859649779": {
"ec": [
"88573538879675260254178693225943875484097997767750783275112119998997955747648078031746804233651371023305452679720318589905725673104813",
"72228519371587369768938593107556389934062081027322786327202585746465598820838334876799114561059651101443311114575142525325503986590242",
"95090916789660600189157013691218938370786638001719568453211092491555471453293716187299118945548563314619249146669212136611801136931249",
"83439247030491993580466398774209202427825989108961057658504911125177029874637837826514962009755700803635029287130341725856301028588803",
"89074202622657865205830778715736286741524277033093616589203331595747557313616682866925401833"
]
},
"89074202622657865205830778715736286741524277033093616589203331595747557313616682866925401833": {
"ec": [
"81976017857670572089718908952576632508490883737176352910204855468538405378206846124375838123",
"54668972860428823366686755232388774468175351723574407232989192565466496402294506609613079821",
"77278520035266483036922473653498594430905975317892389479405215655272764610925183396025324089",
"21077246822590445002229161136294954689303827655836784149984441930843080308522147327697686638",
"2764921654546385458193406781160480653177524300794526333463"
]
},
"2764921654546385458193406781160480653177524300794526333463": {
"f": {
"2": 1,
"3": 1,
"547": 1,
"739463": 1,
"1981297": 1,
"575013740661392940681411635465878238806181": 1
}
},
"1981297": {
"f": {
"2": 4,
"3": 2,
"13759": 1
}
},
"575013740661392940681411635465878238806181": {
"f": {
"2": 2,
"5": 1,
"7": 1,
"12637": 1,
"327453672643": 1,
"992559009691069436925557": 1
}
},
"327453672643": {
"f": {
"2": 1,
"3": 1,
"79": 1,
"690830533": 1
}
},
"690830533": {
"f": {
"2": 2,
"3": 5,
"7": 1,
"101533": 1
}
},
"992559009691069436925557": {
"f": {
"2": 2,
"13": 1,
"821": 1,
"210097": 1,
"110659826267069": 1
}
},
"110659826267069": {
"f": {
"2": 2,
"13": 1,
"2128073582059": 1
}
},
"2128073582059": {
"f": {
"2": 1,
"3": 1,
"317": 1,
"1118860979": 1
}
},
"1118860979": {
"f": {
"2": 1,
"8753": 1,
"63913": 1
}
}
},
"r521": {
"6864797660130609714981900799081393217269435300143305409394463459185543183397655394245057746333217197532963996371363321113864768612440380340372808892707005449": {
"ec": [
"3661494077687657136347797061741422736970380907973959546901475620369438294055162519299366173728709751973815724417859471287830745341486500705451948807949139363",
"2001209633731898876277368989614784591306377757521039591023584566564292176890320947702634246780197204989342782797164272096006621977524245920484450807173265450",
"2760755751134066246894270685252158827755410629972771577738847406212777057225035201482090999138122392612901024671064023121510695761312526259050105370314236971",
"1607709494574201207922322429341011495329353185056984589944353410959929531123569140956758475493738963071465159850477417245840904746426340348279865349911151028",
"19461718858925540679277508522554507196235428718205448262527704323936543957413910601222721449317651650982966616354732873261229759"
]
},
"19461718858925540679277508522554507196235428718205448262527704323936543957413910601222721449317651650982966616354732873261229759": {
"ec": [
"18740229146486166845212874942538338341810665487662700464897290218711776185718504546532459881576452246079137679559561301745300644",
"14292594142067809309055993158131188972703711522394557045721532300455425225342640647899812442473681574412194888635421741837345594",
"3480721440668176104057289638406983433040135454180813653113214444714229555080545415483170000378032739385764485121300130294163561",
"12153701965260073251032378062850114892550092076684938548697698037069298568553523214429482474845282962181536762593864562983755955",
"220539638909501172320513163464293306658308675375415634788821363130934318787076263030517"
]
},
"220539638909501172320513163464293306658308675375415634788821363130934318787076263030517": {
"ec": [
"166679267168893636734914984200970236427323815357152070464798699007417279178819192793592",
"0",
"218724074722727545754052720537956305671730693091743853925768456057566732202677711846247",
"74342013972880603118911588827927140551815858877773976414660104930846347434729548443732",
"5419592505157102644294146559863175234996067325935193"
]
},
"5419592505157102644294146559863175234996067325935193": {
"f": {
"2": 3,
"14051": 1,
"387341": 1,
"124473225397390091545186818664938573836189": 1
}
},
"124473225397390091545186818664938573836189": {
"f": {
"2": 2,
"47": 1,
"829": 1,
"16097": 1,
"632503": 1,
"78443331455438264163635659": 1
}
},
"78443331455438264163635659": {
"f": {
"2": 1,
"3": 2,
"44963353": 1,
"96922550652204677": 1
}
},
"44963353": {
"f": {
"2": 3,
"3": 2,
"7": 1,
"89213": 1
}
},
"96922550652204677": {
"f": {
"2": 2,
"7": 1,
"113": 1,
"349": 1,
"87773402291": 1
}
},
"87773402291": {
"f": {
"2": 1,
"5": 1,
"7": 1,
"41": 1,
"53": 1,
"401": 1,
"1439": 1
}
}
}
}