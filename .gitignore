*.vo
*.vos
*.vok
*.glob
*.aux
.*.aux
.nia.cache
.lia.cache
.nra.cache
.Makefile.d
rocq/Makefile
rocq/Makefile.conf
rocq/.Makefile.d
