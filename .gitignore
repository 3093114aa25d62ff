*.vo
*.vos
*.vok
*.glob
.*.aux
rocq/Makefile
rocq/Makefile.conf
rocq/.Makefile.d
.lia.cache
.nra.cache
.nia.cache
.lia.cache
