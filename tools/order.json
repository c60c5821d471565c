{"w": 793479390729215512621379701633421447060886740281060493010456487427281649075476305620758731620350, "11": [[3253033608071528083035230876039060131863417245602626450272171491216781211333398580351097532742936901381794441219000, 263717933183042481211907471272957902390808639416329260656514385772218419238902503396669143705143038367400411614672]], "10177": [[3464389332827480937766014807435057935044852285110522933711016410514899835411211605230079290208829978543920141494719, 1929631645315477825454153000812541246262833234120002174523522998812260413651216513811227884705055946777142193737236], [229318449062663125008435815419158443358515277268714039586293332239830918986996785666495176072017203742233702416140, 2291933416383817474496927490140954361177797168479228281646793604636857342921995303551064639161749942969029665526304], 4773, 5403], "859267": [[1013437851997219362449058724444168051008808714612037916795866805388830762616803638075830259758651008176945436548060, 3684426916834314490081888048681018087856952103078477465475275990533897313313610019560496158740015643134173930385093], [3478585190485290016123130862199762546699334829685264480056569872967615194940442575067511662220079607850524751567378, 3650537652720193349198509883114256977088299191288573223522026115171769516232573759885336530296148388517585755782136], 119571, 739695], "52437899": [[2194283070177897942663790879820221169502290667910818641076796913171220397840329832269196634938524295899145666697259, 1312904805961652911662134242578975939958491860963327903079056025200457627334895757975843423737639057794084328498794]], "T121": [[1762524152433862126569194335954993078291321201714691555160908960927642911464392878538989291464492147357103836554695, 1388003132592570146599559263094574627505033499423172197864334809536682917715418814860066678382502458180097498441450], [3447232547282837364692125741875673748077489238391001187748258124039623697289612052402753422028380156396811587142615, 3688585499472755032730432035883680548858770893929671076807014316279509609106630354924898937615818832057595203212607]], "T3": [120511285767916088733488444073658405736303806691529241888908097198013692928316544176832797037077148781885242038628, 1207833824615830448340035499911984548964524621888171042044280418139442455847270641238267907187141716186022205448547], "pre10177": [[3158136851675199223627891513632028055966504672676215398903681663672638889197342907076818605627233197827045120433461, 2002377800172134951064396949387172892202081304438607598805703425652407183346334692992754708629457273119146174293868], [3605433819409909412637656816093971734296770217925303786165834998214116937804499333294416821580234453818609472615550, 3303789538760243712199874158447212553613192493964794484644645726097423550646669606585695913295853947522998142239238]], "img10177": [[3464389332827480937766014807435057935044852285110522933711016410514899835411211605230079290208829978543920141494719, 1929631645315477825454153000812541246262833234120002174523522998812260413651216513811227884705055946777142193737236], [229318449062663125008435815419158443358515277268714039586293332239830918986996785666495176072017203742233702416140, 2291933416383817474496927490140954361177797168479228281646793604636857342921995303551064639161749942969029665526304]], "inv10177": [[1522857818608032909569480449976150421215173938337545423987022653234259381900490701646928527263216038339836466496647, 3869708127041127002563968472513469847036584108254388198710516560896355080912715890483967628978189151569480945342810], [1061112648648622013985250927584645565879906470751752666063624749168128112002046361544394956404215073556681761586947, 2722254026014145360831549375049789033361567781140067411163795039212617047681452305499878800321338751056942262248749]], "pre859267": [[2063111111867032781566320372261142702010511184129642730693028111081554704782261026202531293889481905750609323840501, 2849151620303852012729531379036622248411494144049922707519311147590029244913775220245366818283325589001173516169797], [1516223624751374828326456882613875429743626157282401730464513587067249818886149979960335533333558398331038925526519, 1162356089824479624234477604394811008078022276057951418705882051972965806618286699875645893851706074484370023666970]], "img859267": [[1013437851997219362449058724444168051008808714612037916795866805388830762616803638075830259758651008176945436548060, 3684426916834314490081888048681018087856952103078477465475275990533897313313610019560496158740015643134173930385093], [3478585190485290016123130862199762546699334829685264480056569872967615194940442575067511662220079607850524751567378, 3650537652720193349198509883114256977088299191288573223522026115171769516232573759885336530296148388517585755782136]], "inv859267": [[2245105973707328780507064309317678361020267863440415761659749514795510552677990596933637382469604422731473156567988, 2275178312919267938182324012516538397172281523123930965506490701705705527407563715856382674427988578913214995512407], [494876652486075065293914023872810424593384391378477946243621160742595615587280724813053774590918497330471490977588, 2572465013966269220369851866246979438285302787750913939207813858759146006011623078294608871396112357840072055247041]], "pre52437899": [[2831948630229104264253477925991998602645246409196437377450585438649414667644213985307544447321319320116010897986531, 3300517588017356543961474821413748804612885190568965380634833982162150389288947935292646641389441311713902640314174], [3140240144795994312269725189532123139887181564434768571348884125814244999524472868267406473512796218415617688418109, 3224104206716464139294458142442976400372997796694811545428387794394617598817802336842533447061528588060293107419540]], "img52437899": [[2194283070177897942663790879820221169502290667910818641076796913171220397840329832269196634938524295899145666697259, 1312904805961652911662134242578975939958491860963327903079056025200457627334895757975843423737639057794084328498794], [1533136587837564579748324776378349503808514702309443997645527829262697118136027651960565151793342427015256933857913, 1312904805961652911662134242578975939958491860963327903079056025200457627334895757975843423737639057794084328498794]], "inv52437899": [[3881517794672890813216425752882872424736542574586487149378192276365818912464328805214986690679715554703580538749874, 2828295774565071788915737536559782899702930582710703305003515560208447933578668555663691001080956487312456452543160], [1811654115995504920713056827640994983696277278905778626322463847395421111896483103123593051673194785581246801180133, 627994609156494281920523470661543219970670823502034005758841184471450787728222440075216759690066281251512701609536]]}