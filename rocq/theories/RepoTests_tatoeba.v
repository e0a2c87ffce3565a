(* RepoTests_tatoeba.v -- test_tatoeba.py of
   /repo/cjktools/tests/resources run on the model: checks on single inputs; no
   property rests on them.  The sample files are copied from the repository. *)
From Verif Require Import Base PyText PyFmt Csv_model Tanaka_model Tatoeba_model RepoTests_core.
From Verif Require DictFormat_model Bilingual_model.
From Coq Require Import String.
Local Open Scope list_scope.

(** a line with its end *)
Definition ln (s : str) : str := s ++ [10].
Definition low (s : str) : str := map (fun c => if (65 <=? c) && (c <=? 90) then c + 32 else c) s.
Definition file (ls : list str) : list (list str) * res unit := load_file (mksource ls None).
Definition sentences_csv : list str := 
[ln (u "6381	fra	J'ai fait réparer mon vélo par mon frère.");
  ln (u "29390	eng	Role-playing video games are time consuming.");
  ln (u "36809	eng	What's your job?");
  ln (u "46235	eng	The good driver wove his way through the traffic.");
  ln (u "54432	eng	What line of work are you in?");
  ln (u "62093	eng	It's fifteen minutes' walk from here to the campus.");
  ln (u "68807	eng	There is a good argument for dismissing you.");
  ln (u "82526	jpn	忙しくて会社にいるんだ。");
  ln (u "93620	jpn	彼女は１時間以内に戻ります。");
  ln (u "109744	jpn	彼は英語が苦手だが、数学では誰にも劣らない。");
  ln (u "112733	jpn	彼はその時大学を卒業したてであった。");
  ln (u "156245	jpn	私は自分の自転車を弟に直させた。");
  ln (u "192227	jpn	ロールプレイングのテレビゲームは時間を食う。");
  ln (u "199398	jpn	どんな職業に就いていますか。");
  ln (u "208975	jpn	その上手な運転手は車の列を縫うように車を走らせた。");
  ln (u "224758	jpn	ここから学校の構内まで歩いて１５分だ。");
  ln (u "231440	jpn	あなたを解雇する十分な理由があります。");
  ln (u "258289	eng	I had my bicycle fixed by my brother.");
  ln (u "290943	eng	He was then fresh from college.");
  ln (u "293946	eng	He is poor at English but second to none in mathematics.");
  ln (u "310087	eng	She will return within an hour.");
  ln (u "321190	eng	I'm tied up at the office.");
  ln (u "410787	eng	What's your occupation?");
  ln (u "508870	pol	Jestem uwiązany w pracy.");
  ln (u "723598	hun	Innen az iskola épületéig gyalog 15 perc.");
  ln (u "817971	deu	Ich habe mein Fahrrad von meinem Bruder reparieren lassen.");
  ln (u "2031040	eng	It's a fifteen minute walk from here to the campus.");
  ln (u "2031042	eng	It takes fifteen minutes to walk from here to the campus.");
  ln (u "2172488	rus	Она вернется в течение часа.")].
Definition detailed_csv : list str := 
[ln (u "6381	fra	J'ai fait réparer mon vélo par mon frère.	mrtaistoi	\N	2015-03-06 04:16:31");
  ln (u "29390	eng	Role-playing video games are time consuming.	Dejo	\N	2012-08-20 03:09:03");
  ln (u "36809	eng	What's your job?	CK	\N	2010-07-05 15:33:44");
  ln (u "46235	eng	The good driver wove his way through the traffic.	\N	\N	\N");
  ln (u "54432	eng	What line of work are you in?	CK	\N	2011-02-24 19:07:06");
  ln (u "62093	eng	It's fifteen minutes' walk from here to the campus.	CK	\N	2013-12-07 10:44:35");
  ln (u "68807	eng	There is a good argument for dismissing you.	\N	\N	2013-12-02 12:49:30");
  ln (u "82526	jpn	忙しくて会社にいるんだ。	\N	\N	\N");
  ln (u "93620	jpn	彼女は１時間以内に戻ります。	\N	\N	\N");
  ln (u "109744	jpn	彼は英語が苦手だが、数学では誰にも劣らない。	\N	\N	\N");
  ln (u "112733	jpn	彼はその時大学を卒業したてであった。	\N	\N	\N");
  ln (u "156245	jpn	私は自分の自転車を弟に直させた。	\N	\N	\N");
  ln (u "192227	jpn	ロールプレイングのテレビゲームは時間を食う。	\N	\N	\N");
  ln (u "199398	jpn	どんな職業に就いていますか。	\N	\N	\N");
  ln (u "208975	jpn	その上手な運転手は車の列を縫うように車を走らせた。	\N	\N	\N");
  ln (u "224758	jpn	ここから学校の構内まで歩いて１５分だ。	\N	\N	\N");
  ln (u "231440	jpn	あなたを解雇する十分な理由があります。	\N	\N	\N");
  ln (u "258289	eng	I had my bicycle fixed by my brother.	CK	\N	2010-10-07 15:55:17");
  ln (u "290943	eng	He was then fresh from college.	CM	\N	2012-03-03 08:53:00");
  ln (u "293946	eng	He is poor at English but second to none in mathematics.	\N	\N	\N");
  ln (u "310087	eng	She will return within an hour.	CK	\N	2010-12-09 08:34:46");
  ln (u "321190	eng	I'm tied up at the office.	CK	\N	2010-11-13 13:20:56");
  ln (u "410787	eng	What's your occupation?	CK	2010-06-24 14:20:10	2010-06-24 14:20:28");
  ln (u "508870	pol	Jestem uwiązany w pracy.	zipangu	2010-09-12 03:17:43	2010-09-12 03:17:43");
  ln (u "723598	hun	Innen az iskola épületéig gyalog 15 perc.	Farkas	2011-01-23 21:15:09	2011-01-23 21:15:09");
  ln (u "817971	deu	Ich habe mein Fahrrad von meinem Bruder reparieren lassen.	Pfirsichbaeumchen	2011-03-30 21:03:41	2012-06-25 21:52:02");
  ln (u "2031040	eng	It's a fifteen minute walk from here to the campus.	CK	2012-11-23 13:19:05	2012-11-23 13:19:05");
  ln (u "2031042	eng	It takes fifteen minutes to walk from here to the campus.	CK	2012-11-23 13:19:24	2012-11-23 13:19:24");
  ln (u "2172488	rus	Она вернется в течение часа.	sharptoothed	2013-01-28 13:42:35	2013-01-28 13:42:35")].
Definition links_csv : list str := 
[ln (u "6381	156245");
  ln (u "6381	258289");
  ln (u "6381	817971");
  ln (u "29390	192227");
  ln (u "36809	199398");
  ln (u "46235	208975");
  ln (u "54432	199398");
  ln (u "62093	224758");
  ln (u "62093	2031040");
  ln (u "68807	231440");
  ln (u "82526	321190");
  ln (u "82526	508870");
  ln (u "93620	310087");
  ln (u "93620	2172488");
  ln (u "109744	293946");
  ln (u "112733	290943");
  ln (u "156245	6381");
  ln (u "156245	258289");
  ln (u "192227	29390");
  ln (u "199398	36809");
  ln (u "199398	54432");
  ln (u "199398	410787");
  ln (u "208975	46235");
  ln (u "224758	62093");
  ln (u "224758	723598");
  ln (u "224758	2031040");
  ln (u "224758	2031042");
  ln (u "231440	68807");
  ln (u "258289	6381");
  ln (u "258289	156245");
  ln (u "290943	112733");
  ln (u "293946	109744");
  ln (u "310087	93620");
  ln (u "310087	2172488");
  ln (u "321190	82526");
  ln (u "410787	199398");
  ln (u "508870	82526");
  ln (u "723598	224758");
  ln (u "2031040	62093");
  ln (u "2031040	224758");
  ln (u "2031042	224758");
  ln (u "2172488	93620");
  ln (u "2172488	310087")].
Definition indices_csv : list str := 
[ln (u "82526	321190	忙しい{忙しくて} 会社 に 居る(いる)[01]{いる} のだ{んだ}");
  ln (u "93620	310087	彼女[01] は|1 一時間{１時間} 以内 に 戻る{戻ります}");
  ln (u "109744	293946	彼(かれ)[01] は|1 英語 が 苦手 だ が[03] 数学 で は|1 誰にも 劣る{劣らない}");
  ln (u "112733	290943	彼(かれ)[01] は|1 其の[01]{その} 時(とき)  大学 を 卒業[01] 為る(する){し} 立て(たて)[02]{たて}~ である{であった}");
  ln (u "156245	258289	私(わたし)[01] は|1 自分[01] の 自転車 を 弟[01] に 直す[02]{直させた}");
  ln (u "192227	29390	ロールプレイング~ の テレビゲーム は|1 時間 を 食う[07]");
  ln (u "199398	54432	どんな 職業 に 就く[02]{就いています} か");
  ln (u "208975	46235	其の[01]{その} 上手(じょうず)[01]{上手な} 運転手 は|1 車 の 列 を 縫う[02] 様(よう){ように} 車 を 走らせる{走らせた}");
  ln (u "224758	62093	此処[01]{ここ} から 学校 の 構内 迄{まで} 歩く{歩いて} 分(ふん) だ");
  ln (u "231440	68807	貴方(あなた)[01]{あなた} を 解雇 為る(する){する} 十分(じゅうぶん)[01]{十分な} 理由 が[01] 有る{あります}")].
Definition je_edict : list str := 
[ln (u "　？？？ /EDICT, EDICT_SUB(P), EDICT2 Japanese-English Electronic Dictionary Files/Copyright Electronic Dictionary Research & Development Group - 2013/Created: 2013-06-14/");
  ln (u "か /(prt) (1) indicates question (sentence end)/(2) indicates choice, doubt, etc./(P)/");
  ln (u "から /(prt) (1) from (e.g. time, place, numerical quantity)/since/(2) from (originator)/(3) because/(4) out of (constituent, part)/(5) through (e.g. window, vestibule)/(6) after/since (following te-form verb)/(P)/");
  ln (u "が /(prt) (1) indicates sentence subject (occasionally object)/(2) indicates possessive (esp. in literary expressions)/(prt,conj) (3) but/however/still/and/(P)/");
  ln (u "だ /(aux) (1) be/is/(aux-v) (2) indicates past or completed action/(3) indicates light imperative/(P)/");
  ln (u "で /(prt) (1) indicates location of action/at/in/(2) indicates time of action/(3) indicates means of action/cause of effect/by/(conj) (4) and then/so/(aux) (5) indicates continuing action/(prt) (6) (ksb:) indicates certainty, emphasis, etc./(P)/");
  ln (u "である /(v5r-i) to be (formal, literary)/");
  ln (u "どんな /(adj-pn) (1) what/what kind of/(2) (with -temo, demo, etc.) any(body, thing, means, etc.)/(P)/");
  ln (u "に /(prt) indicates such things as location of person or thing, location of short-term action, etc./(P)/");
  ln (u "の /(prt) (1) indicates possessive/(2) nominalizes verbs and adjectives/(3) substitutes for ""ga"" in subordinate phrases/(4) (at sentence-end, falling tone) indicates a confident conclusion/(5) (fem) (at sentence-end) indicates emotional emphasis/(6) (at sentence-end, rising tone) indicates question/(P)/");
  ln (u "のだ /(exp) the expectation is that .../the reason is that .../the fact is that .../it is that .../(P)/");
  ln (u "を /(prt) (1) indicates direct object of action/(2) indicates subject of causative expression/(3) indicates an area traversed/(4) indicates time (period) over which action takes place/(5) indicates point of departure or separation of action/(6) indicates object of desire, like, hate, etc./(P)/");
  ln (u "テレビゲーム /(n) video game (wasei: television game)/");
  ln (u "ロールプレイング /(n) (comp) role-playing/roleplaying/");
  ln (u "以内 [いない] /(n,n-suf) within/inside of/less than/(P)/");
  ln (u "為る [する] /(vs-i) (1) (uk) to do/(2) (uk) to cause to become/to make (into)/to turn (into)/(3) (uk) to serve as/to act as/to work as/(4) (uk) to wear (clothes, a facial expression, etc.)/(5) (uk) to judge as being/to view as being/to think of as/to treat as/to use as/(6) (uk) to decide on/to choose/(vs-i,vi) (7) (uk) to be sensed (of a smell, noise, etc.)/(8) (uk) to be (in a state, condition, etc.)/(9) (uk) to be worth/to cost/(10) (uk) to pass (of time)/to elapse/(suf,vs-i) (11) (uk) verbalizing suffix (applies to nouns noted in this dictionary with the part of speech ""vs"")/(aux-v,vs-i) (12) (uk) creates a humble verb (after a noun prefixed with ""o"" or ""go"")/(13) (uk) to be just about to/to be just starting to/to try to/to attempt to/(P)/");
  ln (u "為る [なる] /(v5r,vi) (1) (uk) to become/to get/to grow/to be/to reach/to attain/(2) to result in/to prove to be/(3) to consist of/to be composed of/(4) to succeed/to be complete/(5) to change into/to be exchanged for/(6) to play a role/(7) to be promoted (shogi)/(v5r) (8) (hon) to do .../");
  ln (u "一時間 [いちじかん] /(n) one hour/");
  ln (u "運転手 [うんてんしゅ] /(n) driver/chauffeur/(P)/");
  ln (u "英語 [えいご] /(n,adj-no) English (language)/(P)/");
  ln (u "会社 [かいしゃ] /(n) (1) company/corporation/(2) workplace/(P)/");
  ln (u "解雇 [かいこ] /(n,vs) discharge/dismissal/(P)/");
  ln (u "学校 [がっこう] /(n) school/(P)/");
  ln (u "貴方 [あなた] /(pn,adj-no) (1) (uk) (pol) you (referring to someone of equal or lower status)/(2) dear (what a wife calls a husband)/(P)/");
  ln (u "貴方 [あんた] /(pn,adj-no) (uk) you (familiar form of anata)/");
  ln (u "貴方 [きほう] /(n) (1) (hon) your home/your residence/(pn,adj-no) (2) (hon) you (referring to one's equal; epistolary style)/");
  ln (u "居る [いる] /(v1,vi) (1) (uk) to be (of animate objects)/to exist/(2) to stay/(v1,aux-v) (3) (after the -te form of a verb) verb indicating continuing action or state (i.e. to be ..ing, to have been ..ing)/(P)/");
  ln (u "居る [おる] /(v5r,vi) (1) (uk) (hum) to be (animate)/to be/to exist/(v5r,aux-v) (2) (after the -te form of a verb) verb indicating continuing action or state (i.e. to be ..ing)/(3) (after -masu base of verb) indicates contempt or disdain for another's actions/(P)/");
  ln (u "苦手 [にがて] /(adj-na,n) (1) poor (at)/weak (in)/not very good (at)/(2) dislike (of)/(P)/");
  ln (u "構内 [こうない] /(n,adj-no) premises/grounds/campus/in-house/(P)/");
  ln (u "此処 [ここ] /(n) (1) (uk) here (place physically close to the speaker, place pointed by the speaker while explaining)/this place/(2) these last (followed by a duration noun and a past sentence: time period before the present time of the speaker)/(3) these next ... (followed by a duration noun and a non past sentence: time period after the present time of the speaker)/the next .../(P)/");
  ln (u "私 [あたい] /(pn,adj-no) (fem) I/me/");
  ln (u "私 [あたくし] /(pn,adj-no) (fem) I/me/");
  ln (u "私 [あたし] /(pn,adj-no) (fem) I/me/(P)/");
  ln (u "私 [あっし] /(pn,adj-no) I (mainly used by working men)/myself/");
  ln (u "私 [あて] /(pn,adj-no) (fem) I/me/");
  ln (u "私 [し] /(n) private affairs/personal matter/");
  ln (u "私 [わい] /(pn) (1) (arch) (ksb:) I/me/(2) you (used toward people of equal or lower status)/");
  ln (u "私 [わし] /(pn,adj-no) (uk) I/me (used by elderly males)/");
  ln (u "私 [わたい] /(n) (arch) (ktb:) I/me/");
  ln (u "私 [わたくし] /(pn,adj-no) (1) I/me/(n,adj-no) (2) private affairs/personal matter/secrecy/(3) selfishness/(P)/");
  ln (u "私 [わたし] /(pn,adj-no) I/me/(P)/");
  ln (u "私 [わっし] /(pn,adj-no) I (mainly used by working men)/myself/");
  ln (u "私 [わっち] /(pn,adj-no) I (mainly used by working men)/myself/");
  ln (u "私 [わて] /(pn) (arch) (ksb:) I/me/");
  ln (u "私 [わらわ] /(pn,adj-no) (arch) (hum) (fem) I/me/");
  ln (u "時 [じ] /(suf) (1) hour/o'clock/(suf,adj-no) (2) (specified) time/when .../during .../");
  ln (u "時 [とき] /(n) (1) time/hour/moment/(2) occasion/case/(3) chance/opportunity/season/(4) the times/the age/the day/(5) (ling) tense/(P)/");
  ln (u "時 [どき] /(n-suf) time for -/time of -/- time/(suitable) time to -/");
  ln (u "時間 [じかん] /(n-adv,n) (1) time/(ctr) (2) hours/(P)/");
  ln (u "自転車 [じてんしゃ] /(n) bicycle/(P)/");
  ln (u "自転車 [じでんしゃ] /(ik) (n) bicycle/");
  ln (u "自分 [じぶん] /(pn,adj-no) (1) myself/yourself/oneself/himself/herself/(2) I/me/(P)/");
  ln (u "車 [くるま] /(n) (1) car/automobile/vehicle/(2) wheel/(P)/");
  ln (u "車 [しゃ] /(n-suf) car/vehicle/");
  ln (u "就く [つく] /(v5k) (1) to ascend (the throne)/to accede/(2) to take (seat, position, course, etc.)/to assume/(3) to start (on a journey)/to commence/to depart/(4) to study (under teacher)/to be an apprentice/(P)/");
  ln (u "十分 [じっぷん] /(n) 10 minutes/");
  ln (u "十分 [じゅうぶん] /(adj-na) (1) plenty/enough/sufficient/satisfactory/adequate/(n,vs) (2) division into ten/(adv) (3) perfectly/thoroughly/fully/in full/(P)/");
  ln (u "十分 [じゅっぷん] /(n) 10 minutes/");
  ln (u "上手 [うわて] /(adj-na,n) (1) upper part/(adj-na,n) (2) skillful (only in comparisons)/dexterity (only in comparisons)/(n) (3) (sumo) over-arm grip on opponent's belt/");
  ln (u "上手 [かみて] /(adj-na,n) (1) upper part/(n) (2) upper stream/upper course of a river/(3) right side of the stage (audience's or camera's POV)/stage left (actor's POV)/");
  ln (u "上手 [じょうしゅ] /(adj-na,n) (1) skill/skillful/dexterity/(n) (2) flattery/");
  ln (u "上手 [じょうず] /(adj-na,n) (1) skill/skillful/dexterity/(n) (2) flattery/(P)/");
  ln (u "上手 [じょうて] /(adj-na,n) (1) skill/skillful/dexterity/(n) (2) flattery/");
  ln (u "職業 [しょくぎょう] /(n,adj-no) occupation/business/(P)/");
  ln (u "食う [くう] /(v5u,vt) (1) (male) (vulg) to eat/(2) to live/to make a living/to survive/(3) to bite/to sting (as insects do)/(4) to tease/to torment/to taunt/to make light of/to make fun of/(5) to encroach on/to eat into/to consume/(6) to defeat a superior/to threaten a position/(7) to consume time and-or resources/(8) (col) to receive something (usu. an unfavourable event)/(9) (male) (vulg) to have sexual relations with a woman, esp. for the first time/(P)/");
  ln (u "数学 [すうがく] /(n) mathematics/arithmetic/(P)/");
  ln (u "走らせる [はしらせる] /(v1,vt) (1) to dispatch/to make run/(2) to drive/to gallop/to sail/(3) to run (a program)/(4) to rout/to put to flight/");
  ln (u "卒業 [そつぎょう] /(n,vs,adj-no) (1) graduation/completion (e.g. of a course)/(2) (col) outgrowing something/moving on/(P)/");
  ln (u "其の [その] /(adj-pn) (1) (uk) that (something or someone distant from the speaker, close to the listener; actions of the listener, or ideas expressed or understood by the listener)/the/(int) (2) um.../er.../uh.../(P)/");
  ln (u "大学 [だいがく] /(n) (1) post-secondary education institution, incl. university, college, etc./(2) (abbr) former central university of Kyoto (established under the ritsuryo system for the training of government administrators)/(3) the Great Learning - one of the Four Books/(P)/");
  ln (u "誰にも [だれにも] /(adv) anybody and everybody/with the best of them/as the next fellow/");
  ln (u "直す [なおす] /(v5s,vt) (1) to cure/to heal/(2) to fix/to correct/to repair/(aux-v) (3) to do over again (after -masu base of verb)/(4) (ksb:) to replace/to put back as it was/(5) to convert (into a different state)/to transform/(P)/");
  ln (u "弟 [おと] /(n) (hum) younger brother/");
  ln (u "弟 [おとうと] /(n) (hum) younger brother/(P)/");
  ln (u "弟 [おとと] /(ik) (n) (hum) younger brother/");
  ln (u "弟 [てい] /(n) (1) (hum) younger brother/(2) (arch) pupil/apprentice/");
  ln (u "彼 [あ] /(ok) (n) (1) (uk) that (indicating something distant from both speaker and listener (in space, time or psychologically), or something understood without naming it directly)/(2) that person (used to refer to one's equals or inferiors)/(3) (arch) over there/(int) (4) (uk) hey (expression of surprise, suspicion, etc.)/huh?/eh?/(n) (5) (uk) that (something mentioned before which is distant psychologically or in terms of time)/");
  ln (u "彼 [あれ] /(n) (1) (uk) that (indicating something distant from both speaker and listener (in space, time or psychologically), or something understood without naming it directly)/(2) that person (used to refer to one's equals or inferiors)/(3) (arch) over there/(4) (col) down there (i.e. one's genitals)/(5) (col) period/menses/(int) (6) (uk) hey (expression of surprise, suspicion, etc.)/huh?/eh?/(n) (7) (uk) that (something mentioned before which is distant psychologically or in terms of time)/(P)/");
  ln (u "彼 [かれ] /(pn) (1) he/him/(adj-no) (2) his/(3) boyfriend/(P)/");
  ln (u "彼女 [かのじょ] /(pn) (1) she/her/(adj-no) (2) her/(3) girl friend/girlfriend/sweetheart/(P)/");
  ln (u "分 [ふん] /(n) (1) minute/(2) fun (one tenth of a monme, 5.787 grains)/(P)/");
  ln (u "分 [ぶ] /(num) (1) one-tenth/one percent (one-tenth of a wari)/3 mm (one-tenth of a sun)/2.4 mm (one-tenth of a mon, a traditional unit used to measure shoe sizes)/0.1 degree (one-tenth of a do, used to measure body temperature on any temperature scale)/(n) (2) one-quarter of a ryou (obsolete unit of currency)/(3) thickness/(4) advantageous circumstances/(5) one-tenth of a monme of silver/");
  ln (u "分 [ぶん] /(n,n-suf,pref) (1) part/segment/share/ration/(2) rate/(3) degree/one's lot/one's status/relation/duty/kind/lot/(4) in proportion to/just as much as/(P)/");
  ln (u "歩く [あるく] /(v5k,vi) to walk/(P)/");
  ln (u "縫う [ぬう] /(v5u,vt) (1) to sew/to stitch/(2) to weave one's way (e.g. through a crowd)/(P)/");
  ln (u "忙しい [いそがしい] /(adj-i) busy/hectic/occupied/engaged/(P)/");
  ln (u "忙しい [せわしい] /(adj-i) busy/hectic/occupied/engaged/");
  ln (u "迄 [まで] /(prt) (1) (uk) until (a time)/till/to/up to/(2) (uk) to (a place)/as far as/(3) (uk) to (an extent)/up to/so far as/even/(4) (uk) only/merely/(P)/");
  ln (u "戻る [もどる] /(v5r,vi) to turn back/to return/to go back/to recover/to rebound/(P)/");
  ln (u "有る [ある] /(v5r-i,vi) (1) (uk) to be (usu. of inanimate objects)/to exist/to live/(2) to have/(3) to be located/(4) to be equipped with/(5) to happen/to come about/(P)/");
  ln (u "様 [さま] /(suf) (1) (hon) Mr./Mrs./Miss/Ms./(2) (pol) makes words more polite (usu. in fixed expressions)/(n) (3) state/situation/appearance/(P)/");
  ln (u "様 [ざま] /(n) (1) (derog) (uk) mess/sorry state/plight/sad sight/(suf) (2) -ways/-wards/(3) in the act of .../just as one is .../(4) manner of .../way of .../");
  ln (u "様 [ためし] /(n) precedent/example/");
  ln (u "様 [ちゃま] /(suf) (hon) (fam) (chn) (uk) Mr./Mrs./Ms./");
  ln (u "様 [よう] /(n-suf,n) (1) (uk) appearing .../looking .../(2) way to .../method of ...ing/(3) form/style/design/(4) like/similar to/(n) (5) thing (thought or spoken)/(P)/");
  ln (u "理由 [りゆう] /(n) reason/pretext/motive/(P)/");
  ln (u "理由 [わけ] /(ik) (n) reason/pretext/motive/");
  ln (u "立て [たて] /(pref) (1) central/main/head/chief/(suf) (2) (uk) just (done)/freshly (baked)/indicates activity only just occurred/(ctr) (3) counter for consecutive losses/");
  ln (u "立て [だて] /(suf) (1) particularly/especially/(2) indicates the number of horses or oxen drawing a carriage/indicates the number of oars on a boat/(3) indicates the number of movies, plays, etc. comprising a single program/indicates the number of items or methods used/");
  ln (u "列 [れつ] /(n) queue/line/row/column/sequence/string/train/(P)/");
  ln (u "劣る [おとる] /(v5r,vi) to be inferior to/to be less good at/to fall behind/(P)/")].
Definition sr (f : list str) := new_sentences ascii_dv (fun s => Ok s) (fun _ => false) None (u "f") (file f).
Definition sent_ids : list Z :=
  [6381; 29390; 36809; 46235; 54432; 62093; 68807; 82526; 93620; 109744; 112733; 156245; 192227; 199398; 208975; 224758; 231440; 258289;
   290943; 293946; 310087; 321190; 410787; 508870; 723598; 817971; 2031040; 2031042; 2172488].
(* test_tatoeba.py:106-118, the same for both files *)
Example test_basic : forall f, In f [sentences_csv; detailed_csv] -> (do r <- sr f; sentence_ids r) = Ok sent_ids.
Proof. intros f [<- | [<- | []]]; vm_compute; reflexivity. Qed.
(* test_tatoeba.py:120-125 *)
Example test_language_filter : forall f, In f [sentences_csv; detailed_csv] ->
  (do r <- new_sentences ascii_dv (fun s => Ok s) (fun _ => false) (Some [u "fra"; u "pol"; u "rus"]) (u "f") (file f); sentence_ids r) =
  Ok [6381; 508870; 2172488].
Proof. intros f [<- | [<- | []]]; vm_compute; reflexivity. Qed.
(* test_tatoeba.py:127-145 *)
Example test_custom_filter_row : forall f, In f [sentences_csv; detailed_csv] ->
  let filter_row row := match py_int ascii_dv 10 (hd [] row) with Some i => negb (mem i [224758; 6381; 29390]) | None => false end in
  (do r <- new_sentences ascii_dv (fun s => Ok s) filter_row (Some [u "eng"; u "jpn"]) (u "f") (file f); sentence_ids r) = Ok [29390; 224758].
Proof. intros f [<- | [<- | []]]; vm_compute; reflexivity. Qed.
(* test_tatoeba.py:147-160, 162-180 *)
Example test_language : forall f, In f [sentences_csv; detailed_csv] ->
  (do r <- sr f; mapM (language r) [82526; 93620; 109744; 208975; 36809; 293946; 410787; 2031042]) =
    Ok (repeat (u "jpn") 4 ++ repeat (u "eng") 4) /\
  (do r <- sr f; language r 193) = Raise InvalidIDError /\
  (do r <- sr f; mapM (getitem r) [192227; 29390; 208975; 46235]) =
    Ok [u "ロールプレイングのテレビゲームは時間を食う。"; u "Role-playing video games are time consuming.";
        u "その上手な運転手は車の列を縫うように車を走らせた。"; u "The good driver wove his way through the traffic."] /\
  (do r <- sr f; sentence r 24) = Raise InvalidIDError.
Proof. intros f [<- | [<- | []]]; vm_compute; repeat split. Qed.
(* test_tatoeba.py:182-191, 206-228 *)
Example test_details :
  (do r <- sr sentences_csv; details r 192227) = Raise MissingDataError /\ (do r <- sr sentences_csv; details r 0) = Raise MissingDataError /\
  (do r <- sr detailed_csv; details r 24) = Raise InvalidIDError /\
  (do r <- sr detailed_csv; mapM (details r) [82526; 199398; 258289; 410787]) =
    Ok [(None, None, None); (None, None, None); (Some (u "CK"), None, Some (u "2010-10-07 15:55:17"));
        (Some (u "CK"), Some (u "2010-06-24 14:20:10"), Some (u "2010-06-24 14:20:28"))].
Proof. vm_compute; repeat split. Qed.
(* test_tatoeba.py:231-246 *)
Example test_invalid_file : forall f, In f
  [[ln (u "3444	eng"); ln (u "3949	jp")]; [u "3444	eng	The boy ate a tiger	MB"];
   [u "3444	eng	The boy ate a tiger	MB	\N	\N	\N"]; [u "3444	eng	The boy ate a 虎	MB"]] -> sr f = Raise InvalidFileError.
Proof. intros f [<- | [<- | [<- | [<- | []]]]]; vm_compute; reflexivity. Qed.

Definition lr (f : list str) (ids : option (list Z)) (flt : str) : res lreader := snd (new_links ascii_dv low (u "f") (file f) ids flt).
Definition all_groups (r : res lreader) (get : lreader -> Z -> res (list Z)) (l : list (Z * list Z)) : bool :=
  ok_and (fun r => forallb (fun ig => ok_and (fun g => same_set g (snd ig) && Nat.eqb (List.length g) (List.length (snd ig))) (get r (fst ig))) l) r.
(* test_tatoeba.py:266-287 *)
Example test_links_basic :
  let gs := [(6381, [6381; 156245; 258289; 817971]); (29390, [29390; 192227]); (36809, [36809; 54432; 199398; 410787]); (46235, [46235; 208975]);
    (62093, [62093; 224758; 723598; 2031040; 2031042]); (68807, [68807; 231440]); (82526, [82526; 321190; 508870]);
    (93620, [93620; 310087; 2172488]); (109744, [109744; 293946]); (112733, [112733; 290943])] in
  (do r <- lr links_csv None (u "both"); do d <- of_option AttributeError (ldicts r); Ok (List.length (fst d))) = Ok 29%nat /\
  all_groups (lr links_csv None (u "both")) lgetitem gs = true /\ all_groups (lr links_csv None (u "both")) group gs = true.
Proof. vm_compute; repeat split. Qed.
(* test_tatoeba.py:289-337 *)
Definition subset5 : list Z := [6381; 82526; 258289; 192227; 508870].
Example test_filters :
  all_groups (lr links_csv (Some subset5) (u "both")) lgetitem [(6381, [6381; 258289]); (82526, [82526; 508870])] = true /\
  all_groups (lr links_csv (Some subset5) (u "sent_id")) lgetitem
    [(6381, [6381; 156245; 258289; 817971]); (82526, [82526; 321190; 508870]); (29390, [29390; 192227])] = true /\
  all_groups (lr links_csv (Some subset5) (u "trans_id")) lgetitem
    [(6381, [6381; 156245; 258289]); (82526, [82526; 321190; 508870]); (29390, [29390; 192227])] = true /\
  map (fun f => rmap filter_str (lr links_csv (Some subset5) f)) [u "both"; u "sent_id"; u "trans_id"] = [Ok (u "both"); Ok (u "sent_id"); Ok (u "trans_id")].
Proof. vm_compute; repeat split. Qed.
(* test_tatoeba.py:339-365 *)
Example test_filter_error :
  lr links_csv (Some subset5) (u "banana") = Raise ValueError /\ (do r <- lr links_csv None (u "both"); group r 100) = Raise InvalidIDError /\
  rmap (map (fun g => same_set g [6381; 156245] || same_set g [29390; 192227]))
    (do r <- lr links_csv (Some [6381; 156245; 29390; 192227]) (u "both"); groups r) = Ok [true; true].
Proof. vm_compute; repeat split. Qed.
(* test_tatoeba.py:382-397 *)
Example test_invalid_links : forall f, In f
  [[ln (u "3444"); ln (u "3949")]; [u "3444	eng	The boy ate a tiger	MB"]; [u "3444	eng	The boy ate a tiger (虎)	MB"]] ->
  lr f None (u "both") = Raise InvalidFileError.
Proof. intros f [<- | [<- | [<- | []]]]; vm_compute; reflexivity. Qed.

Definition W (h : string) (r : option string) (s : option Z) (d : option string) (e : bool) : word := mkword (u h) (option_map u r) s (option_map u d) e.
(* test_tatoeba.py:401-423 *)
Example test_legacy_tag :
  map (from_text ascii_dv) [u "は|1"; u "度(ど)|1"; u "は|1[01]"; u "ばれる|1{ばれた}"; u "わっと|2~"] =
  map Ok [W "は" None None None false; W "度" (Some "ど"%string) None None false; W "は" None (Some 1) None false;
          W "ばれる" None None (Some "ばれた"%string) false; W "わっと" None None None true].
Proof. vm_compute; reflexivity. Qed.
(* test_tatoeba.py:425-455 *)
Example test_str :
  map word_str
    [W "を" None None None false; W "時" (Some "とき"%string) None None false; W "が" None (Some 3) None false;
     W "大学" (Some "だいがく"%string) (Some 1) None false; W "である" None None (Some "であった"%string) false;
     W "為る" (Some "する"%string) None (Some "し"%string) false; W "其の" None (Some 1) (Some "その"%string) false;
     W "其の" (Some "その"%string) (Some 1) (Some "その"%string) false; W "ロールプレイング" None None None true;
     W "時" (Some "とき"%string) None None true; W "食う" None (Some 7) None true; W "彼" (Some "かれ"%string) (Some 1) None true;
     W "ネイティブアメリカン" None None (Some "ネイティブ・アメリカン"%string) true;
     W "喝采を送る" (Some "かっさいをおくる"%string) None (Some "喝采を送った"%string) true;
     W "ソフト" None (Some 1) (Some "ソフトな"%string) true; W "立て" (Some "たて"%string) (Some 2) (Some "たて"%string) true] =
  [u "を"; u "時(とき)"; u "が[03]"; u "大学(だいがく)[01]"; u "である{であった}"; u "為る(する){し}"; u "其の[01]{その}"; u "其の(その)[01]{その}";
   u "ロールプレイング~"; u "時(とき)~"; u "食う[07]~"; u "彼(かれ)[01]~"; u "ネイティブアメリカン{ネイティブ・アメリカン}~";
   u "喝采を送る(かっさいをおくる){喝采を送った}~"; u "ソフト[01]{ソフトな}~"; u "立て(たて)[02]{たて}~"].
Proof. vm_compute; reflexivity. Qed.
(* test_tatoeba.py:457-472 *)
Example test_neq :
  forallb (fun ab => word_ne (fst ab) (snd ab))
    [(W "を" None None None false, W "が" None None None false);
     (W "時" (Some "とき"%string) None None false, W "時" (Some "じ"%string) None None false);
     (W "が" None (Some 3) None false, W "が" None (Some 2) None false);
     (W "飲ませる" None None (Some "飲ませて"%string) false, W "飲ませる" None None (Some "飲ませない"%string) false);
     (W "ロールプレイング" None None None true, W "ロールプレイング" None None None false)] = true.
Proof. vm_compute; reflexivity. Qed.

Definition ir (edict : option (dict str (list str))) (ids : option (list Z)) : res ireader :=
  new_indices ascii_dv (u "f") (file indices_csv) edict ids.
Definition P (h r : string) : word := W h (match r with EmptyString => None | _ => Some r end) None None false.
(** the sentences of TatoebaIndexReaderTests and TatoebaIndexReaderEdictTests:
    [x] says whether the dictionary's readings are filled in *)
Definition expected (x : bool) : list (list word) :=
  let X (r : string) := if x then Some r else None in
  [[W "彼" (Some "かれ"%string) (Some 1) None false; P "は" ""; W "英語" (X "えいご"%string) None None false; P "が" "";
    W "苦手" (X "にがて"%string) None None false; P "だ" ""; W "が" None (Some 3) None false; W "数学" (X "すうがく"%string) None None false;
    P "で" ""; P "は" ""; W "誰にも" (X "だれにも"%string) None None false; W "劣る" (X "おとる"%string) None (Some "劣らない"%string) false];
   [W "彼" (Some "かれ"%string) (Some 1) None false; P "は" ""; W "其の" (X "その"%string) (Some 1) (Some "その"%string) false;
    P "時" "とき"; W "大学" (X "だいがく"%string) None None false; P "を" ""; W "卒業" (X "そつぎょう"%string) (Some 1) None false;
    W "為る" (Some "する"%string) None (Some "し"%string) false; W "立て" (Some "たて"%string) (Some 2) (Some "たて"%string) true;
    W "である" None None (Some "であった"%string) false];
   [W "ロールプレイング" None None None true; P "の" ""; P "テレビゲーム" ""; P "は" ""; W "時間" (X "じかん"%string) None None false;
    P "を" ""; W "食う" (X "くう"%string) (Some 7) None false]].
(* test_tatoeba.py:504-559 *)
Example test_index_basic : (do r <- ir None None; mapM (igetitem r) [109744; 112733; 192227]) = Ok (expected false).
Proof. vm_compute; reflexivity. Qed.
(* test_tatoeba.py:561-572, 574-578 *)
Example test_link :
  (do r <- ir None None; mapM (link r) [82526; 93620; 109744; 112733; 156245; 192227; 199398; 208975; 224758; 231440]) =
    Ok [321190; 310087; 293946; 290943; 258289; 29390; 54432; 46235; 62093; 68807] /\
  (do r <- ir None None; link r 1224) = Raise InvalidIDError.
Proof. vm_compute; repeat split. Qed.
(* test_tatoeba.py:585-591 *)
Example test_subset :
  (do r <- ir None (Some [112733; 109744]); do d <- of_option AttributeError (idicts r); Ok (same_set (dkeys (fst d)) [112733; 109744], List.length (fst d))) = Ok (true, 2%nat).
Proof. vm_compute; reflexivity. Qed.
(** the edict of the sample data, as the reader looks at it *)
Definition edict_readings : dict str (list str) :=
  match DictFormat_model.load_dictionary {| Bilingual_model.lists := []; Bilingual_model.entries := [] |} je_edict with
  | (h, Ok d) => map (fun kv => (fst kv, Bilingual_model.list_at h (Bilingual_model.readings (Bilingual_model.entry_at h (snd kv))))) d
  | _ => []
  end.
(* test_tatoeba.py:593-637 *)
Example test_index_edict : (do r <- ir (Some edict_readings) None; mapM (igetitem r) [109744; 112733; 192227]) = Ok (expected true).
Proof. vm_compute; reflexivity. Qed.
(* test_tatoeba.py:639-647 *)
Example test_invalid_entry :
  new_indices ascii_dv (u "f") (file [ln (u "93620	310087	彼女{テレビ}[01] は|1 一時間{１時間} 以内 に 戻る{戻ります}")]) None None = Raise InvalidEntryError.
Proof. vm_compute; reflexivity. Qed.
