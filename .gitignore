rocq/Makefile
rocq/Makefile.conf
rocq/.Makefile.d
rocq/.lia.cache
rocq/.nia.cache
rocq/**/*.vo
rocq/**/*.vok
rocq/**/*.vos
rocq/**/*.glob
rocq/**/*.aux
.lia.cache
.nia.cache
